(* C67-C69: the recorded commands on a device that keeps the real layouts. *)
From Verif Require Import Spec_Device Proof_Layout Proof_Record Proof_Run2 Proof_Run3 Proof_Device Proof_Device2 Proof_Device3 Proof_Device4 Proof_Device5 Proof_Device6 Props_Record.
From Coq Require Import PeanoNat.
Local Open Scope N_scope.

(** C67, for views that cut the images in regions and passes whose bodies are sound: every command of a recording is
    given the real layouts, and what the recording knows at its end is true. *)
Theorem C67_commands_state_real_layouts_partial : forall e g F deps passes d,
  regions F -> sound_passes e g F passes ->
  (forall v, F v -> truthful g (start_context e deps passes) d v) ->
  let '(g', cmds, _) := record_graph e g deps passes in
  all_legal d cmds /\
  forall v, F v -> known_layout (g_final g') v = L_UNDEFINED \/ view_in (after_all d cmds) v (known_layout (g_final g') v).
Proof.
  intros e g F deps passes d HF Hp R. pose proof (graph_good e g F HF deps passes d Hp R) as G.
  destruct (record_graph e g deps passes) as [[g' cmds] tr]. destruct G as (A & B & _). auto.
Qed.
Print Assumptions C67_commands_state_real_layouts_partial.

(* The bodies of the passes of the library are sound. *)
Theorem C67_plain_body : forall e g F p, regions F -> neutral_fun (rp_record p) -> sound_body e g F p.
Proof. intros e g F p HF. apply sound_neutral. Qed.
Print Assumptions C67_plain_body.
(* ImageBlit: source and destination declared as transfer input and output. *)
Theorem C67_blit_body : forall e g F p src dst pass1 vs1 b1 w1 f1 m1 pass2 vs2 b2 w2 f2 m2 so ss dof ds filter,
  regions F -> (forall v, In v (pass_views p) -> F v) ->
  src = declare_image addTransferInputView pass1 vs1 b1 w1 f1 m1 -> dst = declare_image addTransferOutputView pass2 vs2 b2 w2 f2 m2 ->
  In src (rp_images p) -> In dst (rp_images p) ->
  (forall c i, rp_record p c i = image_blit (attach_view src i) (attach_view dst i) so ss dof ds filter c) -> sound_body e g F p.
Proof.
  intros e g F p src dst pass1 vs1 b1 w1 f1 m1 pass2 vs2 b2 w2 f2 m2 so ss dof ds filter HF Hv -> -> Hs Hd E. apply sound_of_good.
  intros c d R Rd. rewrite E. unfold image_blit. apply good_one; [exact R| |reflexivity]. cbn [legal].
  split; (split; [left; reflexivity|]); apply sub_in.
  - apply (F_ok F HF), Hv, (in_map (fun a => attach_view a (rp_index p))), Hs.
  - apply (source_ready e p d); assumption.
  - apply (F_ok F HF), Hv, (in_map (fun a => attach_view a (rp_index p))), Hd.
  - apply (target_ready e p d); assumption.
Qed.
Print Assumptions C67_blit_body.
(* BufferToImageCopy and ImageToBufferCopy. *)
Theorem C67_buffer_to_image_body : forall e g F p src dst pass2 vs2 b2 w2 f2 m2 off size,
  regions F -> (forall v, In v (pass_views p) -> F v) ->
  dst = declare_image addTransferOutputView pass2 vs2 b2 w2 f2 m2 -> In dst (rp_images p) ->
  (forall c i, rp_record p c i = buffer_to_image src (attach_view dst i) i off size c) -> sound_body e g F p.
Proof.
  intros e g F p src dst pass2 vs2 b2 w2 f2 m2 off size HF Hv -> Hd E. apply sound_of_good.
  intros c d R Rd. rewrite E. unfold buffer_to_image. apply good_one; [exact R| |reflexivity]. cbn [legal]. split; [left; reflexivity|]. apply sub_in.
  - apply (F_ok F HF), Hv, (in_map (fun a => attach_view a (rp_index p))), Hd.
  - apply (target_ready e p d); assumption.
Qed.
Print Assumptions C67_buffer_to_image_body.
Theorem C67_image_to_buffer_body : forall e g F p src dst pass1 vs1 b1 w1 f1 m1 off size,
  regions F -> (forall v, In v (pass_views p) -> F v) ->
  src = declare_image addTransferInputView pass1 vs1 b1 w1 f1 m1 -> In src (rp_images p) ->
  (forall c i, rp_record p c i = image_to_buffer (attach_view src i) dst i off size c) -> sound_body e g F p.
Proof.
  intros e g F p src dst pass1 vs1 b1 w1 f1 m1 off size HF Hv -> Hd E. apply sound_of_good.
  intros c d R Rd. rewrite E. unfold image_to_buffer. apply good_one; [exact R| |reflexivity]. cbn [legal]. split; [left; reflexivity|]. apply sub_in.
  - apply (F_ok F HF), Hv, (in_map (fun a => attach_view a (rp_index p))), Hd.
  - apply (source_ready e p d); assumption.
Qed.
Print Assumptions C67_image_to_buffer_body.
(* ImageCopy: pairs of source and destination, with or without a final layout. *)
Theorem C67_copy_body : forall e g F p size final,
  regions F -> (forall v, In v (pass_views p) -> F v) -> pairwise separate_views (pass_views p) ->
  (forall n a, nth_error (rp_images p) n = Some a -> exists pass vs b w f m,
     a = declare_image (if Nat.even n then addTransferInputView else addTransferOutputView) pass vs b w f m) ->
  (forall c, rp_record p c (rp_index p) = image_copies e size final (pass_views p) c) -> sound_body e g F p.
Proof.
  intros e g F p size final HF Hv Hp Ha E. apply sound_of_good. intros c d R Rd. rewrite E. apply (good_copies e g F HF); [exact R|exact Hv|exact Hp|].
  intros n v H. unfold pass_views in H. rewrite nth_error_map in H. destruct (nth_error (rp_images p) n) as [a|] eqn:Ea; [|discriminate]. cbn in H. injection H as <-.
  destruct (Ha n a Ea) as (pass & vs & b & w & f & m & ->). pose proof (nth_error_In _ _ Ea) as Hin. destruct (Nat.even n).
  - apply (source_ready e p d); assumption.
  - apply (target_ready e p d); assumption.
Qed.
Print Assumptions C67_copy_body.
(* A render pass whose Vulkan render pass is made by this recording, or expects nothing of its attachments. *)
Theorem C67_render_body_partial : forall e g F p body t,
  regions F -> proper_targets e F p -> neutral_fun body -> holds F p t ->
  rd_renderPass (pass_data t (rp_index p)) = 0 \/ (forall x, In x (rd_entries (pass_data t (rp_index p))) -> ls_layout (en_input x) = L_UNDEFINED) ->
  sound_body e g F (render_pass e g p body t).
Proof. intros e g F p body t HF Hp Hb Ht Hc. apply sound_render; assumption. Qed.
Print Assumptions C67_render_body_partial.

(* A pass that writes a whole image with two levels, then one that draws on level 0, copies, and samples.  *)
Definition lv (id i : N) : view := vw id i (rng 0 1 0 1).
Definition ex_regions (v : view) : Prop := v = lv 1 1 \/ v = lv 2 2 \/ v = lv 3 3 \/ v = vw 4 1 (rng 1 4 0 6).
Lemma ex_regions_ok : regions ex_regions.
Proof.
  split.
  - intros v [->|[->|[->| ->]]]; (split; [split; [vm_compute; repeat split; discriminate|discriminate]|reflexivity]).
  - intros v w [->|[->|[->| ->]]] [->|[->|[->| ->]]];
      try (left; repeat split; reflexivity); try (right; left; discriminate);
      (right; right; intros layer mip; unfold in_range; cbn; lia).
Qed.
Definition draw_pass : rpass := marker_pass 1 [declare_image addOutputColourView 1 [lv 1 1] 0 0 0 9; declare_image addSampledView 1 [vw 4 1 (rng 1 4 0 6)] 0 0 0 0] [] false.
Definition copy_pass : rpass :=
  {| rp_id := 2; rp_images := [declare_image addTransferInputView 2 [lv 1 1] 0 0 0 0; declare_image addTransferOutputView 2 [lv 2 2] 0 0 0 0]; rp_buffers := [];
     rp_index := 0; rp_compute := false; rp_state := bottom_state;
     rp_record := fun c _ => image_copies all_on (16, 16, 1) L_SHADER_READ_ONLY [lv 1 1; lv 2 2] c; rp_pre := []; rp_post := []; rp_implicit := [] |}.
Definition last_pass : rpass := marker_pass 3 [declare_image addSampledView 3 [lv 1 1] 0 0 0 0; declare_image addInOutStorageView 3 [lv 2 2] 1 0 0 0] [] true.
Definition ex_frame : list rpass := [render_pass all_on empty_graph draw_pass (fun c _ => (c, [CUser 1])) (new_target (16, 16) 1); copy_pass; last_pass].
Lemma neutral_user n : neutral (CUser n). Proof. split; [intro d; exact I|reflexivity]. Qed.
Lemma no_action index v w : ~ touched [] index v w.
Proof. intro H. induction H; [destruct H|assumption]. Qed.
Lemma no_actions e F index (l : list attach) : (forall x : view * action, In x [] -> sound_action e F index (snd x)) /\
  ForallOrdPairs (fun a b => forall w, touched [] index (attach_view b index) w -> separate_views w (attach_view a index)) l.
Proof.
  split; [intros x []|]. induction l as [|a l IH]; constructor; [|exact IH]. apply Forall_forall. intros b _ w H. destruct (no_action _ _ _ H).
Qed.
Lemma ex_frame_sound : sound_passes all_on empty_graph ex_regions ex_frame.
Proof.
  unfold sound_passes. change (flat_map rp_implicit ex_frame) with (@nil (view * action)).
  assert (In1 : ex_regions (lv 1 1)) by (left; reflexivity). assert (In2 : ex_regions (lv 2 2)) by (right; left; reflexivity).
  assert (In4 : ex_regions (vw 4 1 (rng 1 4 0 6))) by (right; right; right; reflexivity).
  assert (S12 : separate_views (lv 1 1) (lv 2 2)) by (left; discriminate). assert (S21 : separate_views (lv 2 2) (lv 1 1)) by (left; discriminate).
  assert (S14 : separate_views (lv 1 1) (vw 4 1 (rng 1 4 0 6))) by (right; intros layer mip; unfold in_range; cbn; lia).
  assert (S41 : separate_views (vw 4 1 (rng 1 4 0 6)) (lv 1 1)) by (right; intros layer mip; unfold in_range; cbn; lia).
  intros p [<-|[<-|[<-|[]]]]; (split; [|split; [|split; [|split; [|apply no_actions]]]]);
    try (intros v [<-|[<-|[]]]; assumption); try (intros f [[]|[]]);
    try (constructor; [intros y [<-|[]]; split; assumption|constructor; [intros y []|constructor]]).
  - apply (C67_render_body_partial all_on empty_graph ex_regions draw_pass (fun c _ => (c, [CUser 1]))).
    + exact ex_regions_ok.
    + split; [intros v [<-|[<-|[]]]; assumption|]. split; [|split].
      * intros a [<-|[<-|[]]]; left; reflexivity.
      * intros a [<-|[<-|[]]]; discriminate.
      * constructor; [intros y [<-|[]]; split; assumption|constructor; [intros y []|constructor]].
    + intros c i. split; [reflexivity|constructor; [apply neutral_user|constructor]].
    + split; [cbn; lia|]. split; [left; reflexivity|discriminate].
    + left. reflexivity.
  - apply (C67_copy_body _ _ _ _ (16, 16, 1) L_SHADER_READ_ONLY); [exact ex_regions_ok|intros v [<-|[<-|[]]]; assumption| | |reflexivity].
    + constructor; [intros y [<-|[]]; split; assumption|constructor; [intros y []|constructor]].
    + intros [|[|n]] a H; [| |destruct n; discriminate]; injection H as <-; [exists 2, [lv 1 1], 0, 0, 0, 0|exists 2, [lv 2 2], 0, 0, 0, 0]; reflexivity.
  - apply C67_plain_body; [exact ex_regions_ok|]. intros c i. split; [reflexivity|constructor; [apply neutral_user|constructor]].
Qed.
Lemma ex_frame_true : forall v, ex_regions v -> truthful empty_graph (start_context all_on [] ex_frame) (fun _ _ _ => 0) v.
Proof. intros v [->|[->|[->| ->]]]; left; vm_compute; reflexivity. Qed.
Example C67_applies :
  (forall v, ex_regions v -> truthful empty_graph (start_context all_on [] ex_frame) (fun _ _ _ => 0) v) /\
  let '(_, cmds, _) := record_graph all_on empty_graph [] ex_frame in
  length cmds = 22%nat /\ all_legal (fun _ _ _ => 0) cmds.
Proof.
  assert (T : forall v, ex_regions v -> truthful empty_graph (start_context all_on [] ex_frame) (fun _ _ _ => 0) v).
  { intros v [->|[->|[->| ->]]]; left; vm_compute; reflexivity. }
  split; [exact T|]. pose proof (C67_commands_state_real_layouts_partial all_on empty_graph ex_regions [] ex_frame (fun _ _ _ => 0) ex_regions_ok ex_frame_sound T) as G.
  assert (L : length (snd (fst (record_graph all_on empty_graph [] ex_frame))) = 22%nat) by (vm_compute; reflexivity).
  destruct (record_graph all_on empty_graph [] ex_frame) as [[g' cmds] tr]. split; [exact L|apply G].
Qed.

(** C67 is false when views overlap: a view of two levels that are in different layouts is given a single old layout. *)
Definition over_frame : list rpass :=
  [marker_pass 1 [declare_image addOutputStorageView 1 [vw 1 1 (rng 0 1 0 1)] 0 0 0 0] [] true;
   marker_pass 2 [declare_image addInputStorageView 2 [vw 1 1 (rng 0 1 0 1)] 0 0 0 0; declare_image addTransferOutputView 2 [vw 2 1 (rng 1 1 0 1)] 1 0 0 0] [] true;
   marker_pass 3 [declare_image addSampledView 3 [vw 3 1 (rng 0 2 0 1)] 0 0 0 0] [] true].
Theorem C67_overlapping_views_refuted : exists e g passes,
  (forall p, In p passes -> neutral_fun (rp_record p) /\ rp_implicit p = [] /\ rp_pre p = [] /\ rp_post p = [] /\ forall v, In v (pass_views p) -> view_ok v /\ v_source v = []) /\
  ~ all_legal (fun _ _ _ => L_UNDEFINED) (snd (fst (record_graph e g [] passes))).
Proof.
  exists all_on, empty_graph, over_frame. split.
  - intros p Hp. assert (N : forall n, neutral_fun (fun c (_ : nat) => (c, [CUser n]))) by (intros n c i; split; [reflexivity|constructor; [apply neutral_user|constructor]]).
    destruct Hp as [<-|[<-|[<-|[]]]]; (split; [apply N|split; [reflexivity|split; [reflexivity|split; [reflexivity|]]]]);
      intros v Hv; repeat (destruct Hv as [<-|Hv]); try destruct Hv; (split; [split; [vm_compute; repeat split; discriminate|discriminate]|reflexivity]).
  - intro H. rewrite <- (firstn_skipn 14 (snd (fst (record_graph all_on empty_graph [] over_frame)))) in H. apply legal_app in H. destruct H as [_ H].
    set (l1 := firstn 14 _) in H. set (l2 := skipn 14 _) in H. vm_compute in l1, l2. subst l2. cbn [all_legal legal] in H. destruct H as ([[H|H] _] & _); [discriminate H|].
    specialize (H 0 1). assert (R : in_range {| r_aspect := 1; r_mip := 0; r_levels := 2; r_layer := 0; r_layers := 1 |} 0 1) by (unfold in_range; cbn; lia).
    specialize (H R). subst l1. vm_compute in H. discriminate H.
Qed.
Print Assumptions C67_overlapping_views_refuted.

(** C68: when the body of a pass begins, every attachment the graph has to bring in a layout is really in it. *)
Theorem C68_ready_on_device_partial : forall e g F deps passes1 p passes2 d,
  let passes := passes1 ++ p :: passes2 in
  regions F -> sound_passes e g F passes ->
  (forall v, F v -> truthful g (start_context e deps passes) d v) -> e_enabled e (rp_id p) = true ->
  exists before c after, snd (fst (record_graph e g deps passes)) = before ++ snd (rp_record p c (rp_index p)) ++ after /\
    forall a, In a (rp_images p) -> has_transition a = true -> a_getImageLayout a (e_separate e) <> L_UNDEFINED ->
      view_in (after_all d before) (attach_view a (rp_index p)) (a_getImageLayout a (e_separate e)).
Proof.
  intros e g F deps passes1 p passes2 d passes HF Hp R En. unfold record_graph.
  assert (P : pend (flat_map rp_implicit passes) (start_context e deps passes)) by (intros q v a Hx; rewrite start_implicit in Hx; destruct Hx).
  destruct (loop_split e g F HF (flat_map rp_implicit passes) p En passes1 passes2 (start_context e deps passes) d (sound_all g F e passes Hp) P R) as (b & c & t & E & Rd).
  fold passes in E. destruct (record_loop e g passes (start_context e deps passes)) as [[c' l] tr]. exists b, c, t. split; [exact E|exact Rd].
Qed.
Print Assumptions C68_ready_on_device_partial.
Definition ex_first : list rpass := [render_pass all_on empty_graph draw_pass (fun c _ => (c, [CUser 1])) (new_target (16, 16) 1); copy_pass].
Lemma ex_split : ex_frame = ex_first ++ last_pass :: []. Proof. reflexivity. Qed.
Example C68_applies : exists before c after,
  snd (fst (record_graph all_on empty_graph [] ex_frame)) = before ++ snd (rp_record last_pass c 0) ++ after /\
  view_in (after_all (fun _ _ _ => 0) before) (lv 1 1) L_SHADER_READ_ONLY /\ view_in (after_all (fun _ _ _ => 0) before) (lv 2 2) L_GENERAL.
Proof.
  pose proof (C68_ready_on_device_partial all_on empty_graph ex_regions [] ex_first last_pass [] (fun _ _ _ => 0) ex_regions_ok) as H. cbv zeta in H. rewrite <- ex_split in H.
  pose proof (H ex_frame_sound) as H1.
  pose proof (H1 ex_frame_true) as H2.
  pose proof (H2 eq_refl) as H3. clear H H1 H2.
  destruct H3 as (b & c & t & E & R).
  exists b, c, t. split; [exact E|]. split; [apply (R _ (or_introl eq_refl))|apply (R _ (or_intror (or_introl eq_refl)))]; (reflexivity || discriminate).
Qed.

(** C69: frame after frame. *)
Theorem C69_every_frame_partial : forall F g d frames,
  regions F -> (forall v, F v -> known_layout (g_final g) v = L_UNDEFINED \/ view_in d v (known_layout (g_final g) v)) ->
  frames_possible F g d frames -> frames_legal g frames.
Proof. intros F g d frames HF Hf H. exact (frames_good F HF frames g d Hf H). Qed.
Print Assumptions C69_every_frame_partial.
(* Two frames, with other passes in the second one. *)
Definition frame_1 : frame := {| fr_env := all_on; fr_deps := []; fr_passes := [copy_pass; last_pass]; fr_start := fun _ _ _ => 0 |}.
Definition after_1 : layouts := after_all (fun _ _ _ => 0) (snd (fst (record_graph all_on empty_graph [] [copy_pass; last_pass]))).
Definition frame_2 : frame := {| fr_env := all_on; fr_deps := []; fr_passes := [last_pass; copy_pass; last_pass]; fr_start := after_1 |}.
Lemma two_passes_sound g : sound_pass all_on g ex_regions [] copy_pass /\ sound_pass all_on g ex_regions [] last_pass.
Proof.
  destruct (ex_frame_sound copy_pass (or_intror (or_introl eq_refl))) as (A1 & A2 & A3 & _).
  destruct (ex_frame_sound last_pass (or_intror (or_intror (or_introl eq_refl)))) as (B1 & B2 & B3 & _).
  split; (split; [assumption|split; [assumption|split; [assumption|split; [|apply no_actions]]]]).
  - apply (C67_copy_body _ _ _ _ (16, 16, 1) L_SHADER_READ_ONLY); [exact ex_regions_ok|exact A1| | |reflexivity].
    + constructor; [intros y [<-|[]]; split; left; discriminate|constructor; [intros y []|constructor]].
    + intros [|[|n]] a H; [| |destruct n; discriminate]; injection H as <-; [exists 2, [lv 1 1], 0, 0, 0, 0|exists 2, [lv 2 2], 0, 0, 0, 0]; reflexivity.
  - apply C67_plain_body; [exact ex_regions_ok|]. intros c i. split; [reflexivity|constructor; [apply neutral_user|constructor]].
Qed.
Example C69_applies : frames_possible ex_regions empty_graph (fun _ _ _ => 0) [frame_1; frame_2] /\ frames_legal empty_graph [frame_1; frame_2].
Proof.
  assert (P : frames_possible ex_regions empty_graph (fun _ _ _ => 0) [frame_1; frame_2]).
  { cbn [frames_possible frame_1 frame_2 fr_env fr_deps fr_passes fr_start].
    split; [intros p [<-|[<-|[]]]; apply two_passes_sound|].
    split; [intros v [->|[->|[->| ->]]]; left; vm_compute; reflexivity|].
    split; [intros v _ H; exfalso; apply H; reflexivity|]. split; [intros v _ _ k H; exact H|].
    unfold after_1. destruct (record_graph all_on empty_graph [] [copy_pass; last_pass]) as [[g' cmds] tr] eqn:E. cbn [fst snd].
    assert (Gi : g_inputs g' = []) by (unfold record_graph in E; destruct (record_loop _ _ _ _) as [[? ?] ?]; injection E as <- _ _; reflexivity).
    split; [intros p [<-|[<-|[<-|[]]]]; apply two_passes_sound|].
    split; [intros v [->|[->|[->| ->]]]; left; vm_compute; reflexivity|].
    split; [intros v _ H; exfalso; apply H; unfold input_layout; rewrite Gi; reflexivity|]. split; [intros v _ _ k H; exact H|].
    destruct (record_graph all_on g' [] [last_pass; copy_pass; last_pass]) as [[g2 cmds2] tr2]. exact I. }
  split; [exact P|]. apply (C69_every_frame_partial ex_regions empty_graph (fun _ _ _ => 0)); [exact ex_regions_ok| |exact P].
  intros v _. left. reflexivity.
Qed.

(* With implicit actions: the pass that writes the second image is disabled, and its substitute is run by the pass that samples the image:
   a copy from the first image, that is itself cleared since its own writer is disabled too. *)
Definition some_off : env := {| e_separate := false; e_enabled := fun id => negb (orb (N.eqb id 4) (N.eqb id 5)); e_action := fun t c _ => (c, [CUser t]) |}.
Definition off_pass (id : N) (acts : list (view * action)) : rpass :=
  {| rp_id := id; rp_images := []; rp_buffers := []; rp_index := 0; rp_compute := true; rp_state := bottom_state;
     rp_record := fun c _ => (c, [CUser id]); rp_pre := []; rp_post := []; rp_implicit := acts |}.
Definition substitutes : list (view * action) := [(lv 1 1, AClear [lv 1 1] L_SHADER_READ_ONLY); (lv 2 2, ACopy (lv 1 1) (lv 2 2) 16 16 L_SHADER_READ_ONLY)].
Definition sampling_pass (views : list view) : rpass := marker_pass 3 (map (fun v => declare_image addSampledView 3 [v] 0 0 0 0) views) [] true.
Definition substitute_frame (views : list view) : list rpass := [off_pass 4 [(lv 1 1, AClear [lv 1 1] L_SHADER_READ_ONLY)]; off_pass 5 [(lv 2 2, ACopy (lv 1 1) (lv 2 2) 16 16 L_SHADER_READ_ONLY)]; sampling_pass views].
Lemma substitute_touches i v w : touched substitutes i v w -> (v_id v = 2 /\ (w = lv 1 1 \/ w = lv 2 2)) \/ (v_id v = 1 /\ w = lv 1 1).
Proof.
  intro H. induction H as [v u a w H E Hw|v u a s w H E Hs Ht IH].
  - destruct H as [H|[H|[]]]; injection H as <- <-; cbn in E, Hw; [right|left]; (split; [symmetry; exact E|]).
    + destruct Hw as [<-|[]]. reflexivity.
    + destruct Hw as [<-|[<-|[]]]; [left|right]; reflexivity.
  - destruct H as [H|[H|[]]]; injection H as <- <-; cbn in E, Hs; [discriminate|]. injection Hs as <-. left. split; [symmetry; exact E|].
    destruct IH as [[IH _]|[_ IH]]; [discriminate|left; exact IH].
Qed.
Lemma off_sound id acts : sound_pass some_off empty_graph ex_regions substitutes (off_pass id acts).
Proof.
  split; [intros v []|]. split; [constructor|]. split; [intros f [[]|[]]|].
  split; [apply C67_plain_body; [exact ex_regions_ok|]; intros c i; split; [reflexivity|constructor; [apply neutral_user|constructor]]|].
  split; [|constructor]. intros x [<-|[<-|[]]]; (split; [|try exact I; left; discriminate]); intros v Hv; repeat (destruct Hv as [<-|Hv]); try destruct Hv; unfold ex_regions; tauto.
Qed.
Lemma substitute_sound : sound_passes some_off empty_graph ex_regions (substitute_frame [lv 2 2; lv 3 3; lv 1 1]).
Proof.
  unfold sound_passes. change (flat_map rp_implicit (substitute_frame [lv 2 2; lv 3 3; lv 1 1])) with substitutes.
  intros p [<-|[<-|[<-|[]]]]; [apply off_sound|apply off_sound|].
  assert (S12 : separate_views (lv 1 1) (lv 2 2)) by (left; discriminate). assert (S21 : separate_views (lv 2 2) (lv 1 1)) by (left; discriminate).
  assert (S13 : separate_views (lv 1 1) (lv 3 3)) by (left; discriminate). assert (S31 : separate_views (lv 3 3) (lv 1 1)) by (left; discriminate).
  assert (S23 : separate_views (lv 2 2) (lv 3 3)) by (left; discriminate). assert (S32 : separate_views (lv 3 3) (lv 2 2)) by (left; discriminate).
  split; [intros v [<-|[<-|[<-|[]]]]; unfold ex_regions; tauto|].
  split; [constructor; [intros y [<-|[<-|[]]]; split; assumption|constructor; [intros y [<-|[]]; split; assumption|constructor; [intros y []|constructor]]]|].
  split; [intros f [[]|[]]|].
  split; [apply C67_plain_body; [exact ex_regions_ok|]; intros c i; split; [reflexivity|constructor; [apply neutral_user|constructor]]|].
  split; [apply (off_sound 4 [])|].
  change (rp_images (sampling_pass [lv 2 2; lv 3 3; lv 1 1])) with [declare_image addSampledView 3 [lv 2 2] 0 0 0 0; declare_image addSampledView 3 [lv 3 3] 0 0 0 0; declare_image addSampledView 3 [lv 1 1] 0 0 0 0].
  repeat first [apply FOP_nil|apply FOP_cons|apply Forall_nil|apply Forall_cons]; intros w H; apply substitute_touches in H; cbn in H; destruct H as [[E [H|H]]|[E H]]; try discriminate E; subst w; assumption.
Qed.
Example C67_implicit_applies :
  let passes := substitute_frame [lv 2 2; lv 3 3; lv 1 1] in
  let '(_, cmds, _) := record_graph some_off empty_graph [] passes in
  length cmds = 14%nat /\ all_legal (fun _ _ _ => 0) cmds.
Proof.
  cbv zeta.
  assert (T : forall v, ex_regions v -> truthful empty_graph (start_context some_off [] (substitute_frame [lv 2 2; lv 3 3; lv 1 1])) (fun _ _ _ => 0) v).
  { intros v [->|[->|[->| ->]]]; left; vm_compute; reflexivity. }
  pose proof (C67_commands_state_real_layouts_partial some_off empty_graph ex_regions [] (substitute_frame [lv 2 2; lv 3 3; lv 1 1]) (fun _ _ _ => 0) ex_regions_ok substitute_sound T) as G.
  assert (L : length (snd (fst (record_graph some_off empty_graph [] (substitute_frame [lv 2 2; lv 3 3; lv 1 1])))) = 14%nat) by (vm_compute; reflexivity).
  destruct (record_graph some_off empty_graph [] (substitute_frame [lv 2 2; lv 3 3; lv 1 1])) as [[g' cmds] tr]. split; [exact L|apply G].
Qed.
(** C68 is false when an implicit action run for an attachment touches an attachment declared before: the same passes with the first image
    sampled before the second; when the body begins the first image is in the layout of transfers, not in the one of sampling. *)
Theorem C68_implicit_source_refuted : exists e g passes p a,
  In p passes /\ e_enabled e (rp_id p) = true /\ In a (rp_images p) /\ has_transition a = true /\ rp_record p = (fun c _ => (c, [CUser (rp_id p)])) /\
  pairwise (fun a b => separate_views (attach_view a (rp_index p)) (attach_view b (rp_index p))) (rp_images p) /\
  (forall q x, In q passes -> In x (rp_implicit q) -> sound_action e ex_regions (rp_index p) (snd x)) /\
  forall before tail, snd (fst (record_graph e g [] passes)) = before ++ CUser (rp_id p) :: tail ->
    ~ view_in (after_all (fun _ _ _ => L_UNDEFINED) before) (attach_view a (rp_index p)) (a_getImageLayout a (e_separate e)).
Proof.
  exists some_off, empty_graph, (substitute_frame [lv 1 1; lv 2 2]), (sampling_pass [lv 1 1; lv 2 2]), (declare_image addSampledView 3 [lv 1 1] 0 0 0 0).
  split; [right; right; left; reflexivity|]. split; [reflexivity|]. split; [left; reflexivity|]. split; [reflexivity|]. split; [reflexivity|]. split.
  { constructor; [intros y [<-|[]]; split; left; discriminate|constructor; [intros y []|constructor]]. }
  split.
  { intros q x Hq Hx. assert (G : In x substitutes) by (destruct Hq as [<-|[<-|[<-|[]]]]; cbn in Hx; repeat (destruct Hx as [<-|Hx]); try destruct Hx; [left|right; left]; reflexivity).
    destruct (off_sound 4 []) as (_ & _ & _ & _ & S & _). apply S, G. }
  intros before tail E H.
  set (l := snd (fst (record_graph some_off empty_graph [] (substitute_frame [lv 1 1; lv 2 2])))) in E. vm_compute in l. subst l.
  repeat (destruct before as [|? before]; [cbn [app] in E; try discriminate E|injection E as <- E]); try (destruct before; discriminate E);
  (specialize (H 0 0); assert (R : in_range (v_range (lv 1 1)) 0 0) by (unfold in_range; cbn; lia); specialize (H R); vm_compute in H; discriminate H).
Qed.
Print Assumptions C68_implicit_source_refuted.
