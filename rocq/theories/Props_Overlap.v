(* C104: views that overlap. *)
From Verif Require Import Spec_Overlap Proof_Layout Proof_Record Proof_Run2 Proof_Run3 Proof_Device Proof_Device2 Proof_Device3 Proof_Device4 Proof_Overlap Proof_Overlap2 Proof_Overlap3
  Props_Record Props_Device.
From Coq Require Import PeanoNat.
Local Open Scope N_scope.

(** C104.  A recording with views that overlap: all the commands are legal, and what is kept for the next recording is true. *)
Theorem C104_overlapping_views_partial : forall e g (V : view -> Prop) deps passes d,
  (forall v, V v -> view_ok v) -> never_undefined (g_inputs g) -> (forall p, In p passes -> fitting_pass e g V p) ->
  parts_true g V (start_context e deps passes) d -> never_undefined (rc_images (start_context e deps passes)) ->
  even_record e g passes (start_context e deps passes) d ->
  let '(g', cmds, _) := record_graph e g deps passes in
  all_legal d cmds /\
  forall v layer mip, V v -> in_range (v_range v) layer mip ->
    part_known (rc_images (g_final g')) (v_image v) layer mip = L_UNDEFINED \/
    after_all d cmds (i_id (v_image v)) layer mip = part_known (rc_images (g_final g')) (v_image v) layer mip.
Proof.
  intros e g V deps passes d HV HI Hp P C Ev. pose proof (fair_graph e g V HV HI deps passes d Hp P C Ev) as G.
  destruct (record_graph e g deps passes) as [[g' cmds] tr]. destruct G as (A & _ & _ & B). auto.
Qed.
Print Assumptions C104_overlapping_views_partial.
(* The attachments of a pass are in the layouts asked when its body starts. *)
Theorem C104_ready_partial : forall e g (V : view -> Prop) deps passes1 p passes2 d,
  let passes := passes1 ++ p :: passes2 in
  (forall v, V v -> view_ok v) -> never_undefined (g_inputs g) -> (forall q, In q passes -> fitting_pass e g V q) ->
  parts_true g V (start_context e deps passes) d -> never_undefined (rc_images (start_context e deps passes)) ->
  even_record e g passes (start_context e deps passes) d -> e_enabled e (rp_id p) = true ->
  exists before c after, snd (fst (record_graph e g deps passes)) = before ++ snd (rp_record p c (rp_index p)) ++ after /\
    forall a, In a (rp_images p) -> has_transition a = true -> view_in (after_all d before) (attach_view a (rp_index p)) (a_getImageLayout a (e_separate e)).
Proof.
  intros e g V deps passes1 p passes2 d passes HV HI Hp P C Ev En. unfold record_graph.
  destruct (fair_loop_split e g V HV HI p En passes1 passes2 (start_context e deps passes) d Hp (conj P (conj C (start_implicit e deps passes))) Ev) as (b & c & t & E & Rd).
  fold passes in E. destruct (record_loop e g passes (start_context e deps passes)) as [[c' l] tr]. exists b, c, t. split; [exact E|].
  intros a Ha T. apply Rd; [exact Ha|exact T|]. assert (Hq : In p passes) by (apply in_or_app; right; left; reflexivity).
  destruct (Hp p Hq) as (_ & Hu & _). apply (Hu (attach_view a (rp_index p), a_getImageLayout a (e_separate e))).
  unfold asked. apply (in_map (fun a => (attach_view a (rp_index p), a_getImageLayout a (e_separate e)))), filter_In. auto.
Qed.
Print Assumptions C104_ready_partial.
(* Frames one after the other. *)
Theorem C104_every_frame_partial : forall (V : view -> Prop) g d frames,
  (forall v, V v -> view_ok v) -> never_undefined (g_inputs g) ->
  (forall v layer mip, V v -> in_range (v_range v) layer mip ->
     part_known (rc_images (g_final g)) (v_image v) layer mip = L_UNDEFINED \/ d (i_id (v_image v)) layer mip = part_known (rc_images (g_final g)) (v_image v) layer mip) ->
  even_frames V g d frames -> frames_legal g frames.
Proof. intros V g d frames HV HI Hf H. exact (fair_frames V HV frames g d HI Hf H). Qed.
Print Assumptions C104_every_frame_partial.

(* The bodies of the passes of the library fit. *)
Theorem C104_plain_body : forall e g (V : view -> Prop) p, neutral_fun (rp_record p) -> sound_parts e g V p.
Proof. intros e g V p. apply parts_neutral. Qed.
Print Assumptions C104_plain_body.
Theorem C104_blit_body : forall e g (V : view -> Prop) p src dst pass1 vs1 b1 w1 f1 m1 pass2 vs2 b2 w2 f2 m2 so ss dof ds filter,
  (forall v, V v -> view_ok v) -> (forall v, In v (pass_views p) -> V v) ->
  src = declare_image addTransferInputView pass1 vs1 b1 w1 f1 m1 -> dst = declare_image addTransferOutputView pass2 vs2 b2 w2 f2 m2 ->
  In src (rp_images p) -> In dst (rp_images p) ->
  (forall c i, rp_record p c i = image_blit (attach_view src i) (attach_view dst i) so ss dof ds filter c) -> sound_parts e g V p.
Proof.
  intros e g V p src dst pass1 vs1 b1 w1 f1 m1 pass2 vs2 b2 w2 f2 m2 so ss dof ds filter HV Hv -> -> Hs Hd E.
  eapply parts_one; [intro c; rewrite E; reflexivity|reflexivity|]. intros d R. cbn [legal]. split; (split; [left; reflexivity|]); apply sub_in.
  - apply HV, Hv, (in_map (fun a => attach_view a (rp_index p))), Hs.
  - apply (source_ready e p d); assumption.
  - apply HV, Hv, (in_map (fun a => attach_view a (rp_index p))), Hd.
  - apply (target_ready e p d); assumption.
Qed.
Print Assumptions C104_blit_body.
Theorem C104_buffer_to_image_body : forall e g (V : view -> Prop) p src dst pass2 vs2 b2 w2 f2 m2 off size,
  (forall v, V v -> view_ok v) -> (forall v, In v (pass_views p) -> V v) ->
  dst = declare_image addTransferOutputView pass2 vs2 b2 w2 f2 m2 -> In dst (rp_images p) ->
  (forall c i, rp_record p c i = buffer_to_image src (attach_view dst i) i off size c) -> sound_parts e g V p.
Proof.
  intros e g V p src dst pass2 vs2 b2 w2 f2 m2 off size HV Hv -> Hd E.
  eapply parts_one; [intro c; rewrite E; reflexivity|reflexivity|]. intros d R. cbn [legal]. split; [left; reflexivity|]. apply sub_in.
  - apply HV, Hv, (in_map (fun a => attach_view a (rp_index p))), Hd.
  - apply (target_ready e p d); assumption.
Qed.
Print Assumptions C104_buffer_to_image_body.
Theorem C104_image_to_buffer_body : forall e g (V : view -> Prop) p src dst pass1 vs1 b1 w1 f1 m1 off size,
  (forall v, V v -> view_ok v) -> (forall v, In v (pass_views p) -> V v) ->
  src = declare_image addTransferInputView pass1 vs1 b1 w1 f1 m1 -> In src (rp_images p) ->
  (forall c i, rp_record p c i = image_to_buffer (attach_view src i) dst i off size c) -> sound_parts e g V p.
Proof.
  intros e g V p src dst pass1 vs1 b1 w1 f1 m1 off size HV Hv -> Hd E.
  eapply parts_one; [intro c; rewrite E; reflexivity|reflexivity|]. intros d R. cbn [legal]. split; [left; reflexivity|]. apply sub_in.
  - apply HV, Hv, (in_map (fun a => attach_view a (rp_index p))), Hd.
  - apply (source_ready e p d); assumption.
Qed.
Print Assumptions C104_image_to_buffer_body.
Theorem C104_copy_body : forall e g (V : view -> Prop) p size final,
  (forall v, V v -> view_ok v) -> (forall v, In v (pass_views p) -> V v) -> pairwise separate_views (pass_views p) ->
  (forall n a, nth_error (rp_images p) n = Some a -> exists pass vs b w f m,
     a = declare_image (if Nat.even n then addTransferInputView else addTransferOutputView) pass vs b w f m) ->
  (forall c, rp_record p c (rp_index p) = image_copies e size final (pass_views p) c) -> sound_parts e g V p.
Proof.
  intros e g V p size final HV Hv Hp Ha E. apply parts_of_fair. intros c d F Rd _. rewrite E. apply (fair_copies e g V HV); [exact F|exact Hv|exact Hp|].
  intros n v H. unfold pass_views in H. rewrite nth_error_map in H. destruct (nth_error (rp_images p) n) as [a|] eqn:Ea; [|discriminate]. cbn in H. injection H as <-.
  destruct (Ha n a Ea) as (pass & vs & b & w & f & m & ->). pose proof (nth_error_In _ _ Ea) as Hin. destruct (Nat.even n).
  - apply (source_ready e p d); assumption.
  - apply (target_ready e p d); assumption.
Qed.
Print Assumptions C104_copy_body.
(* A render pass whose Vulkan render pass is made by this recording, or expects nothing of its attachments. *)
Theorem C104_render_body_partial : forall e g (V : view -> Prop) p body t,
  (forall v, V v -> view_ok v) -> never_undefined (g_inputs g) -> plain_targets e p -> (forall v, In v (pass_views p) -> V v) -> neutral_fun body -> holds V p t ->
  rd_renderPass (pass_data t (rp_index p)) = 0 \/ (forall x, In x (rd_entries (pass_data t (rp_index p))) -> ls_layout (en_input x) = L_UNDEFINED) ->
  sound_parts e g V (render_pass e g p body t).
Proof. intros e g V p body t HV HI Hp Hv Hb Ht Hc. apply parts_render; assumption. Qed.
Print Assumptions C104_render_body_partial.

(* Two layers of an image are drawn one after the other, then both are sampled through a view made of the two others, and one level of
   one of them is copied. *)
Definition face (n : N) : view := vw (10 + n) 1 (rng 0 1 n 1).
Definition faces : view := mkView 20 (img 1) 0 VT_2D_ARRAY 37 (rng 0 1 0 2) [face 0; face 1].
Definition ov_views (v : view) : Prop := v = face 0 \/ v = face 1 \/ v = faces \/ v = lv 2 2.
Definition face_pass (n : N) : rpass := marker_pass (1 + n) [declare_image addOutputColourView (1 + n) [face n] 0 0 0 9] [] false.
Definition face_render (g : rgraph) (n : N) : rpass := render_pass all_on g (face_pass n) (fun c _ => (c, [CUser (1 + n)])) (new_target (16, 16) 1).
Definition sample_pass : rpass := marker_pass 3 [declare_image addSampledView 3 [faces] 0 0 0 0] [] false.
Definition face_copy : rpass :=
  {| rp_id := 4; rp_images := [declare_image addTransferInputView 4 [face 1] 0 0 0 0; declare_image addTransferOutputView 4 [lv 2 2] 0 0 0 0]; rp_buffers := [];
     rp_index := 0; rp_compute := false; rp_state := bottom_state;
     rp_record := fun c _ => image_copies all_on (16, 16, 1) L_SHADER_READ_ONLY [face 1; lv 2 2] c; rp_pre := []; rp_post := []; rp_implicit := [] |}.
Definition cube_frame (g : rgraph) : list rpass := [face_render g 0; face_render g 1; sample_pass; face_copy].
Lemma ov_ok v : ov_views v -> view_ok v.
Proof. intros [->|[->|[->| ->]]]; (split; [vm_compute; repeat split; discriminate|discriminate]). Qed.
Lemma face_fits g n : n = 0 \/ n = 1 -> never_undefined (g_inputs g) -> fitting_pass all_on g ov_views (face_render g n).
Proof.
  intros Hn HI. assert (Vn : ov_views (face n)) by (destruct Hn as [-> | ->]; [left|right; left]; reflexivity).
  split; [intros v [<-|[]]; exact Vn|]. split; [intros x []|]. split; [intros x y []|]. split; [intros f [[]|[]]|]. split; [reflexivity|].
  apply C104_render_body_partial; [exact ov_ok|exact HI| |intros v [<-|[]]; exact Vn| | |left; reflexivity].
  - split; [|split].
    + intros a [<-|[]]. split; [left; reflexivity|]. split; [vm_compute; discriminate|]. intros v w [<-|[]] [<-|[]]. apply ov_ok, Vn.
    + intros a [<-|[]] _. reflexivity.
    + constructor; [intros y []|constructor].
  - intros c i. split; [reflexivity|constructor; [apply neutral_user|constructor]].
  - split; [cbn; lia|]. split; [left; reflexivity|discriminate].
Qed.
Lemma cube_fits g : never_undefined (g_inputs g) -> forall p, In p (cube_frame g) -> fitting_pass all_on g ov_views p.
Proof.
  intros HI p [<-|[<-|[<-|[<-|[]]]]]; [apply face_fits; auto|apply face_fits; auto| |].
  - split; [intros v [<-|[]]; right; right; left; reflexivity|]. split; [intros x [<-|[]]; vm_compute; discriminate|].
    split; [intros x y [<-|[]] [<-|[]]; right; reflexivity|]. split; [intros f [[]|[]]|]. split; [reflexivity|]. apply C104_plain_body.
    intros c i. split; [reflexivity|constructor; [apply neutral_user|constructor]].
  - assert (Vs : forall v, In v (pass_views face_copy) -> ov_views v) by (intros v [<-|[<-|[]]]; [right; left; reflexivity|right; right; right; reflexivity]).
    assert (S12 : separate_views (face 1) (lv 2 2)) by (left; discriminate). assert (S21 : separate_views (lv 2 2) (face 1)) by (left; discriminate).
    split; [exact Vs|]. split; [intros x [<-|[<-|[]]]; vm_compute; discriminate|].
    split; [intros x y [<-|[<-|[]]] [<-|[<-|[]]]; try (right; reflexivity); left; assumption|]. split; [intros f [[]|[]]|]. split; [reflexivity|].
    apply (C104_copy_body _ _ _ _ (16, 16, 1) L_SHADER_READ_ONLY); [exact ov_ok|exact Vs| | |reflexivity].
    + constructor; [intros y [<-|[]]; split; assumption|constructor; [intros y []|constructor]].
    + intros [|[|n]] a H; [| |destruct n; discriminate]; injection H as <-; [exists 4, [face 1], 0, 0, 0, 0|exists 4, [lv 2 2], 0, 0, 0, 0]; reflexivity.
Qed.
Lemma start_never : never_undefined []. Proof. intros i m layer l mip s H. discriminate. Qed.
Ltac one := eexists; intros layer mip R; unfold in_range in R; cbn in R;
  assert (M : mip = 0) by lia; assert (L : layer = 0 \/ layer = 1) by lia; subst mip;
  destruct L as [L|L]; subst layer; try (exfalso; lia); vm_compute; reflexivity.
Ltac next_pass := match goal with |- let '(_, _) := recordInto ?e ?g ?p ?c in _ => let x := fresh "x" in set (x := recordInto e g p c); vm_compute in x; subst x; cbv beta iota zeta end.
Definition nothing : layouts := fun _ _ _ => L_UNDEFINED.
Lemma cube_even : even_record all_on empty_graph (cube_frame empty_graph) (start_context all_on [] (cube_frame empty_graph)) nothing.
Proof.
  cbn [even_record cube_frame]. split; [intros _; split; [exact I|intros a [<-|[]] _; one]|]. next_pass.
  split; [intros _; split; [exact I|intros a [<-|[]] _; one]|]. next_pass.
  split; [intros _; split; [split; [one|exact I]|intros a [<-|[]] T; discriminate T]|]. next_pass.
  split; [intros _; split; [split; [one|split; [one|exact I]]|intros a [<-|[<-|[]]] T; discriminate T]|]. next_pass. exact I.
Qed.
Lemma cube_true (g : rgraph) d : (forall v layer mip, ov_views v -> in_range (v_range v) layer mip -> told g new_rctx (v_image v) layer mip = L_UNDEFINED \/ d (i_id (v_image v)) layer mip = told g new_rctx (v_image v) layer mip) ->
  parts_true g ov_views (start_context all_on [] (cube_frame g)) d.
Proof. intros H v layer mip Hv R. destruct (V_bounds ov_views ov_ok v layer mip Hv R) as [Hl Hm]. rewrite (told_ext g new_rctx) by (assumption || reflexivity). exact (H v layer mip Hv R). Qed.
Lemma nothing_told im layer mip : told empty_graph new_rctx im layer mip = L_UNDEFINED.
Proof. reflexivity. Qed.
Example C104_applies :
  parts_true empty_graph ov_views (start_context all_on [] (cube_frame empty_graph)) nothing /\
  (exists v w, ov_views v /\ ov_views w /\ ~ separate_views v w /\ ~ same_region v w) /\
  let '(_, cmds, _) := record_graph all_on empty_graph [] (cube_frame empty_graph) in
  length cmds = 27%nat /\ all_legal nothing cmds /\ view_in (after_all nothing (firstn 14 cmds)) faces L_SHADER_READ_ONLY /\ view_in (after_all nothing cmds) (face 1) L_TRANSFER_SRC.
Proof.
  assert (T : parts_true empty_graph ov_views (start_context all_on [] (cube_frame empty_graph)) nothing) by (apply cube_true; intros; left; apply nothing_told).
  split; [exact T|]. split.
  { exists faces, (face 1). split; [right; right; left; reflexivity|]. split; [right; left; reflexivity|]. split.
    - intros [H|H]; [apply H; reflexivity|]. apply (H 1 0); unfold in_range; cbn; lia.
    - intros (_ & _ & _ & H & _). discriminate H. }
  pose proof (C104_overlapping_views_partial all_on empty_graph ov_views [] (cube_frame empty_graph) nothing ov_ok start_never (cube_fits empty_graph start_never) T start_never cube_even) as G.
  set (x := record_graph all_on empty_graph [] (cube_frame empty_graph)) in *. 
  assert (L : length (snd (fst x)) = 27%nat) by (vm_compute; reflexivity).
  assert (W : view_in (after_all nothing (firstn 14 (snd (fst x)))) faces L_SHADER_READ_ONLY /\ view_in (after_all nothing (snd (fst x))) (face 1) L_TRANSFER_SRC).
  { split; intros layer mip R; unfold in_range in R; cbn in R; assert (M : mip = 0) by lia; assert (Q : layer = 0 \/ layer = 1) by lia; subst mip;
      destruct Q as [Q|Q]; subst layer; try (exfalso; lia); vm_compute; reflexivity. }
  destruct x as [[g' cmds] tr]. split; [exact L|]. split; [apply G|exact W].
Qed.

(* Two frames: the second one starts from the layouts left by the first one, with the two layers in different layouts. *)
Definition cube_graph : rgraph := fst (fst (record_graph all_on empty_graph [] (cube_frame empty_graph))).
Definition cube_after : layouts := after_all nothing (snd (fst (record_graph all_on empty_graph [] (cube_frame empty_graph)))).
Definition cube_1 : frame := {| fr_env := all_on; fr_deps := []; fr_passes := cube_frame empty_graph; fr_start := nothing |}.
Definition cube_2 : frame := {| fr_env := all_on; fr_deps := []; fr_passes := cube_frame cube_graph; fr_start := cube_after |}.
Lemma cube_graph_inputs : g_inputs cube_graph = []. Proof. reflexivity. Qed.
Lemma cube_even_2 : even_record all_on cube_graph (cube_frame cube_graph) (start_context all_on [] (cube_frame cube_graph)) cube_after.
Proof.
  set (g := cube_graph). cbn [even_record cube_frame]. split; [intros _; split; [exact I|intros a [<-|[]] _; one]|]. next_pass.
  split; [intros _; split; [exact I|intros a [<-|[]] _; one]|]. next_pass.
  split; [intros _; split; [split; [one|exact I]|intros a [<-|[]] T; discriminate T]|]. next_pass.
  split; [intros _; split; [split; [one|split; [one|exact I]]|intros a [<-|[<-|[]]] T; discriminate T]|]. next_pass. exact I.
Qed.
Lemma cube_known_nothing (v : view) layer mip (real : N) d : real = d ->
  let dep := part_known [] (v_image v) layer mip in let input := part_known [] (v_image v) layer mip in
  (dep <> L_UNDEFINED -> real = dep) /\ (dep = L_UNDEFINED -> input <> L_UNDEFINED -> real = input) /\ (dep = L_UNDEFINED -> input = L_UNDEFINED -> real = d).
Proof. intros E. cbv zeta. split; [intro X; exfalso; apply X; reflexivity|]. split; [intros _ X; exfalso; apply X; reflexivity|intros _ _; exact E]. Qed.
Lemma cube_second : even_frames ov_views cube_graph cube_after [cube_2].
Proof.
  cbn [even_frames cube_2 fr_env fr_deps fr_passes fr_start]. split; [apply cube_fits; rewrite cube_graph_inputs; exact start_never|]. split; [exact start_never|].
  split; [intros v layer mip _ _; rewrite cube_graph_inputs; apply cube_known_nothing; reflexivity|].
  split; [exact cube_even_2|]. destruct (record_graph all_on cube_graph [] (cube_frame cube_graph)) as [[g2 cmds2] tr2]. exact I.
Qed.
Lemma frames_step (V : view -> Prop) g d f rest :
  (forall p, In p (fr_passes f) -> fitting_pass (fr_env f) g V p) -> never_undefined (rc_images (start_context (fr_env f) (fr_deps f) (fr_passes f))) ->
  (forall v layer mip, V v -> in_range (v_range v) layer mip ->
     let real := fr_start f (i_id (v_image v)) layer mip in
     let dep := part_known (rc_images (start_context (fr_env f) (fr_deps f) (fr_passes f))) (v_image v) layer mip in let input := part_known (g_inputs g) (v_image v) layer mip in
     (dep <> L_UNDEFINED -> real = dep) /\ (dep = L_UNDEFINED -> input <> L_UNDEFINED -> real = input) /\
     (dep = L_UNDEFINED -> input = L_UNDEFINED -> real = d (i_id (v_image v)) layer mip)) ->
  even_record (fr_env f) g (fr_passes f) (start_context (fr_env f) (fr_deps f) (fr_passes f)) (fr_start f) ->
  forall g1 d1, g1 = fst (fst (record_graph (fr_env f) g (fr_deps f) (fr_passes f))) -> d1 = after_all (fr_start f) (snd (fst (record_graph (fr_env f) g (fr_deps f) (fr_passes f)))) ->
  even_frames V g1 d1 rest ->
  even_frames V g d (f :: rest).
Proof.
  intros A B C D g1 d1 -> -> E. cbn [even_frames]. split; [exact A|]. split; [exact B|]. split; [exact C|]. split; [exact D|].
  destruct (record_graph (fr_env f) g (fr_deps f) (fr_passes f)) as [[g' cmds] tr]. exact E.
Qed.
Lemma cube_both : even_frames ov_views empty_graph nothing [cube_1; cube_2].
Proof.
  apply (frames_step ov_views empty_graph nothing cube_1 [cube_2]) with (g1 := cube_graph) (d1 := cube_after).
  - apply (cube_fits empty_graph start_never).
  - exact start_never.
  - intros v layer mip _ _. apply cube_known_nothing. reflexivity.
  - exact cube_even.
  - unfold cube_graph. cbn [cube_1 fr_env fr_deps fr_passes]. reflexivity.
  - unfold cube_after. cbn [cube_1 fr_env fr_deps fr_passes fr_start]. reflexivity.
  - exact cube_second.
Qed.
Lemma cube_uneven : ~ one_layout cube_after faces.
Proof.
  intros [k K]. assert (A : cube_after 1 0 0 = k) by (apply (K 0 0); unfold in_range; cbn; lia). assert (B : cube_after 1 1 0 = k) by (apply (K 1 0); unfold in_range; cbn; lia).
  rewrite <- A in B. vm_compute in B. discriminate B.
Qed.
Example C104_frames_apply : even_frames ov_views empty_graph nothing [cube_1; cube_2] /\ ~ one_layout cube_after faces /\ frames_legal empty_graph [cube_1; cube_2].
Proof.
  split; [exact cube_both|]. split; [exact cube_uneven|].
  apply (C104_every_frame_partial ov_views empty_graph nothing); [exact ov_ok|exact start_never|intros; left; reflexivity|exact cube_both].
Qed.

(** The condition on the layouts of the views is needed: all the others hold here. *)
Definition uneven_views (v : view) : Prop := v = vw 1 1 (rng 0 1 0 1) \/ v = vw 2 1 (rng 1 1 0 1) \/ v = vw 3 1 (rng 0 2 0 1).
Theorem C104_uneven_view_refuted : exists e g (V : view -> Prop) passes d,
  (forall v, V v -> view_ok v) /\ never_undefined (g_inputs g) /\ (forall p, In p passes -> fitting_pass e g V p) /\
  parts_true g V (start_context e [] passes) d /\ never_undefined (rc_images (start_context e [] passes)) /\
  ~ all_legal d (snd (fst (record_graph e g [] passes))).
Proof.
  exists all_on, empty_graph, uneven_views, over_frame, nothing.
  assert (NF : forall n, neutral_fun (fun c (_ : nat) => (c, [CUser n]))) by (intros n c i; split; [reflexivity|constructor; [apply neutral_user|constructor]]).
  assert (S12 : separate_views (vw 1 1 (rng 0 1 0 1)) (vw 2 1 (rng 1 1 0 1))) by (right; intros layer mip; unfold in_range; cbn; lia).
  assert (S21 : separate_views (vw 2 1 (rng 1 1 0 1)) (vw 1 1 (rng 0 1 0 1))) by (right; intros layer mip; unfold in_range; cbn; lia).
  split; [intros v [->|[->| ->]]; (split; [vm_compute; repeat split; discriminate|discriminate])|]. split; [exact start_never|]. split.
  { intros p [<-|[<-|[<-|[]]]]; (split; [|split; [|split; [|split; [intros f [[]|[]]|split; [reflexivity|apply C104_plain_body, NF]]]]]).
    - intros v [<-|[]]. left. reflexivity.
    - intros x [<-|[]]. vm_compute. discriminate.
    - intros x y [<-|[]] [<-|[]]. right. reflexivity.
    - intros v [<-|[<-|[]]]; [left|right; left]; reflexivity.
    - intros x [<-|[<-|[]]]; vm_compute; discriminate.
    - intros x y [<-|[<-|[]]] [<-|[<-|[]]]; try (right; reflexivity); left; assumption.
    - intros v [<-|[]]. right. right. reflexivity.
    - intros x [<-|[]]. vm_compute. discriminate.
    - intros x y [<-|[]] [<-|[]]. right. reflexivity. }
  split; [intros v layer mip _ _; left; reflexivity|]. split; [exact start_never|].
  intro H. rewrite <- (firstn_skipn 14 (snd (fst (record_graph all_on empty_graph [] over_frame)))) in H. apply legal_app in H. destruct H as [_ H].
  set (l1 := firstn 14 _) in H. set (l2 := skipn 14 _) in H. vm_compute in l1, l2. subst l2. cbn [all_legal legal] in H. destruct H as ([[H|H] _] & _); [discriminate H|].
  specialize (H 0 1). assert (R : in_range {| r_aspect := 1; r_mip := 0; r_levels := 2; r_layer := 0; r_layers := 1 |} 0 1) by (unfold in_range; cbn; lia).
  specialize (H R). subst l1. vm_compute in H. discriminate H.
Qed.
Print Assumptions C104_uneven_view_refuted.
