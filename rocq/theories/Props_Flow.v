(* C83-C85: the contents of images. *)
From Verif Require Import Spec_Flow Proof_Layout Proof_Record Proof_Run2 Proof_Run3 Proof_Device Proof_Device2 Proof_Device3 Proof_Device4 Proof_Device6 Proof_Flow Proof_Flow2 Proof_Flow3 Props_Record Props_Device.
Local Open Scope N_scope.

(** C83, for views that are those of one region or have nothing in common: once a pass has used a view, nothing is recorded
    between its body and the body of a later pass that discards or overwrites the contents of the view, if the passes in between do
    not ask for it; and the body of the later pass is recorded with the layout of the view known. *)
Theorem C83_contents_reach_later_pass_partial : forall e g deps l0 p mid q l1 v,
  let passes := l0 ++ p :: mid ++ q :: l1 in
  view_ok v -> quiet_env e -> (forall r, In r passes -> quiet_pass r) ->
  e_enabled e (rp_id p) = true -> e_enabled e (rp_id q) = true ->
  (* the first pass uses the view, and does not touch it after its body *)
  establishes e v p -> (forall f, In f (rp_post p) -> careful_at true g v (rp_index p) f) ->
  (* the enabled passes in between do not write it, nor do the implicit actions run for them *)
  (forall r, In r mid -> e_enabled e (rp_id r) = true -> careful_pass true g v r) ->
  careful_before true g v q -> careful_actions true e g v (p :: mid ++ [q]) passes ->
  exists before cp between cq tail,
    snd (fst (record_graph e g deps passes)) = before ++ snd (rp_record p cp (rp_index p)) ++ between ++ snd (rp_record q cq (rp_index q)) ++ tail /\
    Forall (preserves v) between /\ known_layout cq v <> L_UNDEFINED.
Proof.
  intros e g deps l0 p mid q l1 v passes Hv Qe Q Ep Eq Es Hpost Hmid Hq Ha.
  rewrite record_loop_graph. cbn zeta. cbn [fst snd]. pose proof (start_registered e deps passes passes) as R.
  (* the passes after [p]: only those up to [q] run actions that matter *)
  assert (Ha1 : careful_actions true e g v [p] passes) by (intros x y w a [<-|[]]; apply Ha; left; reflexivity).
  assert (Ha2 : careful_actions true e g v (mid ++ [q]) passes) by (intros x y w a Hx; apply Ha; right; exact Hx).
  destruct (reach_pass e g Qe passes l0 (p :: mid ++ q :: l1) (start_context e deps passes)) as (b & c0 & E & _ & R0).
  { intros x Hx. apply in_or_app. left. exact Hx. } { intros x Hx. apply Q, in_or_app. left. exact Hx. } { exact R. }
  unfold passes at 1. rewrite E. cbn [record_loop]. set (c1 := prepare e g p (mid ++ q :: l1) c0). assert (R1 : registered passes c1) by (apply registered_prepare, R0).
  assert (Hp : In p passes) by (apply in_or_app; right; left; reflexivity).
  pose proof (established e g Qe v Hv [p] passes p c1 Ha1 (or_introl eq_refl) Ep Es (Q p Hp) R1) as K.
  pose proof (registered_into e g Qe passes p c1 Hp (Q p Hp) R1) as R2.
  rewrite (into_opening e g p c1 Ep) in *. set (o := opening e g p c1) in *. set (bd := rp_record p (fst o) (rp_index p)) in *. cbn [fst] in R2.
  destruct (flows_closing true g v p (fst bd) Hpost K) as (C1 & C2 & _).
  set (cf := register_all p (fst (closing p (fst bd)))) in *.
  assert (A2 : aware true g v cf) by (apply (aware_ext true g v _ _ (register_known p _ v)); exact C2).
  destruct (flows_to_body e g Qe v Hv true (mid ++ [q]) passes mid q l1 cf Ha2) as (b2 & cq & tail & E2 & P2 & K2); try assumption.
  { intros x Hx. apply in_or_app. left. exact Hx. } { apply in_or_app. right. left. reflexivity. }
  { intros x Hx. apply in_or_app. right. right. apply in_or_app. left. exact Hx. } { apply in_or_app. right. right. apply in_or_app. right. left. reflexivity. }
  { intros x Hx. apply Q. apply in_or_app. right. right. apply in_or_app. left. exact Hx. }
  set (x := record_loop e g (mid ++ q :: l1) cf) in *. destruct x as [[c3 l3] tr]. cbn [fst snd] in *.
  exists (b ++ snd o), (fst o), (snd (closing p (fst bd)) ++ b2), cq, tail. split; [|split; [apply Forall_app; auto|exact K2]].
  rewrite E2, <- !app_assoc. reflexivity.
Qed.
Print Assumptions C83_contents_reach_later_pass_partial.
(* Bodies that record only commands of the user are careful; so is the body of a render pass that loads the view, and it tells its layout. *)
Theorem C83_plain_body : forall own g v i f, (forall c, fst (f c i) = c) -> (forall c, Forall (preserves v) (snd (f c i))) -> careful_at own g v i f.
Proof. intros own g v i f H1 H2 c A. rewrite H1. split; [apply H2|]. split; [exact A|apply incl_refl]. Qed.
Print Assumptions C83_plain_body.
Theorem C83_render_body : forall own e g F p body t v,
  regions F -> F v -> proper_targets e F p -> holds F p t -> careful_at own g v (rp_index p) body ->
  (forall a, In a (rp_images p) -> isTarget a = true -> same_region (attach_view a (rp_index p)) v -> isInput a = true /\ loads (attach_view a (rp_index p)) (declared_ops a) /\ stores (attach_view a (rp_index p)) (declared_ops a)) ->
  (own = true \/ rd_renderPass (pass_data t (rp_index p)) = 0 \/
   forall x, In x (rd_entries (pass_data t (rp_index p))) -> same_region (en_view x) v -> ls_layout (en_input x) <> L_UNDEFINED) ->
  careful_at own g v (rp_index p) (rp_record (render_pass e g p body t)).
Proof. intros own e g F p body t v HF Fv. intros. apply (careful_render g F HF e v Fv); assumption. Qed.
Print Assumptions C83_render_body.
Theorem C83_render_target_known : forall e g F p body t v a,
  regions F -> F v -> proper_targets e F p -> holds F p t -> In a (rp_images p) -> isTarget a = true -> same_region (attach_view a (rp_index p)) v ->
  establishes e v (render_pass e g p body t).
Proof. intros e g F p body t v a HF Fv Hp Ht Ha T S. right. apply (tells_render g F HF e v Fv p body t a); assumption. Qed.
Print Assumptions C83_render_target_known.

(* ImageCopy, ImageBlit and BufferToImageCopy with other destinations, ImageToBufferCopy. *)
Theorem C83_copy_body : forall own e g v i size final views,
  view_ok v -> (forall n w, nth_error views n = Some w -> Nat.even n = false -> view_ok w /\ separate_views w v) ->
  careful_at own g v i (fun c _ => image_copies e size final views c).
Proof. intros own e g v i size final views Hv H c A. apply (flows_copies own e g v Hv); assumption. Qed.
Print Assumptions C83_copy_body.
Theorem C83_transfer_bodies : forall own g v i src dst (bs bd : attach) so ss dof ds filter off size,
  view_ok dst -> separate_views dst v ->
  careful_at own g v i (fun c _ => image_blit src dst so ss dof ds filter c) /\
  careful_at own g v i (fun c i => buffer_to_image bs dst i off size c) /\
  careful_at own g v i (fun c i => image_to_buffer v bd i off size c).
Proof.
  intros own g v i src dst bs bd so ss dof ds filter off size Hd S.
  assert (E : elsewhere (i_id (v_image dst)) (sub_layers (v_range dst)) v) by (apply elsewhere_sub; [exact S|apply sub_layers_in, Hd]).
  split; [|split]; apply C83_plain_body; try reflexivity; intro c; (constructor; [|constructor]); cbn [preserves]; try exact E; exact I.
Qed.
Print Assumptions C83_transfer_bodies.
(* What ImageCopy has copied is not discarded by the transition to the final layout, nor by the copies that follow. *)
Theorem C83_copied_contents_kept : forall e size final views c n src dst,
  (forall w, In w views -> view_ok w) -> pairwise separate_views views ->
  nth_error views (2 * n) = Some src -> nth_error views (2 * n + 1) = Some dst -> known_layout c dst <> L_UNDEFINED ->
  exists l1 l2, snd (image_copies e size final views c) =
    l1 ++ CCopyRegion (i_id (v_image src)) L_TRANSFER_SRC (i_id (v_image dst)) L_TRANSFER_DST (sub_layers (v_range src)) (sub_layers (v_range dst)) (0, 0, 0) (0, 0, 0) size :: l2 /\
    Forall (preserves dst) l2.
Proof. intros e size final views c n src dst H P. apply copies_kept; assumption. Qed.
Print Assumptions C83_copied_contents_kept.

(* A render pass draws on an image; a pass samples it; another, disabled, is replaced by a copy of the image; the last pass samples both. *)
Definition flow_draw : rpass := render_pass some_off empty_graph (marker_pass 1 [declare_image addOutputColourView 1 [lv 1 1] 0 0 0 9] [] false) (fun c _ => (c, [CUser 1])) (new_target (16, 16) 1).
Definition flow_mid : list rpass := [marker_pass 2 [declare_image addSampledView 2 [lv 1 1] 0 0 0 0; declare_image addOutputStorageView 2 [lv 3 3] 1 0 0 0] [] true;
  off_pass 4 [(lv 2 2, ACopy (lv 1 1) (lv 2 2) 16 16 L_SHADER_READ_ONLY)]].
Definition flow_last : rpass := marker_pass 6 [declare_image addSampledView 6 [lv 2 2] 0 0 0 0; declare_image addTransferInputView 6 [lv 1 1] 0 0 0 0] [] true.
Definition flow_graph (input : N) : rgraph := {| g_inputs := setLayoutState [] (img 1) VT_2D_ARRAY (rng 0 1 0 1) (makeLayoutState input); g_outputs := []; g_final := new_rctx |}.
Lemma ok_lv id i : view_ok (lv id i). Proof. split; [repeat split; vm_compute; discriminate|discriminate]. Qed.
Lemma near_self : near (lv 1 1) (lv 1 1). Proof. split; [apply ok_lv|left; repeat split]. Qed.
Lemma near_other id i : i <> 1 -> near (lv 1 1) (lv id i). Proof. intro H. split; [apply ok_lv|right; left; exact H]. Qed.
Lemma quiet_marker n : quiet (fun c _ => (c, [CUser n])). Proof. intros c i. apply incl_refl. Qed.
Lemma quiet_actions (e : env) : (forall t c i, e_action e t c i = (c, [CUser t])) -> quiet_env e.
Proof. intros H t c i. rewrite H. apply incl_refl. Qed.
Lemma careful_marker own g v i n : careful_at own g v i (fun c _ => (c, [CUser n])).
Proof. apply C83_plain_body; [reflexivity|]. intro c. constructor; [exact I|constructor]. Qed.
Example C83_applies :
  let passes := [] ++ flow_draw :: flow_mid ++ flow_last :: [] in
  (quiet_env some_off /\ (forall r, In r passes -> quiet_pass r) /\ establishes some_off (lv 1 1) flow_draw /\
   (forall r, In r flow_mid -> e_enabled some_off (rp_id r) = true -> careful_pass true empty_graph (lv 1 1) r) /\
   careful_before true empty_graph (lv 1 1) flow_last /\ careful_actions true some_off empty_graph (lv 1 1) (flow_draw :: flow_mid ++ [flow_last]) passes) /\
  exists before between tail, snd (fst (record_graph some_off empty_graph [] passes)) = before ++ [CUser 1] ++ between ++ [CUser 6] ++ tail /\
    In (CCopyImage 1 L_TRANSFER_SRC 2 L_TRANSFER_DST (rng 0 1 0 1) (rng 0 1 0 1) 16 16) between.
Proof.
  intro passes. split; [|exists (firstn 3 (snd (fst (record_graph some_off empty_graph [] passes)))), (firstn 15 (skipn 4 (snd (fst (record_graph some_off empty_graph [] passes))))), (skipn 20 (snd (fst (record_graph some_off empty_graph [] passes)))); split; vm_compute; [reflexivity|tauto]].
  assert (HF : ex_regions (lv 1 1)) by (left; reflexivity).
  assert (PT : proper_targets some_off ex_regions (marker_pass 1 [declare_image addOutputColourView 1 [lv 1 1] 0 0 0 9] [] false)).
  { split; [intros v [<-|[]]; exact HF|]. split; [intros a [<-|[]]; left; reflexivity|]. split; [intros a [<-|[]]; discriminate|]. constructor; [intros y []|constructor]. }
  assert (HT : holds ex_regions (marker_pass 1 [declare_image addOutputColourView 1 [lv 1 1] 0 0 0 9] [] false) (new_target (16, 16) 1)) by (split; [cbn; lia|]; split; [left; reflexivity|discriminate]).
  split; [apply quiet_actions; reflexivity|]. split.
  { intros r [<-|[<-|[<-|[<-|[]]]]] f Hf; cbn in Hf; repeat (destruct Hf as [Hf|Hf]; try contradiction); subst f; try apply quiet_marker.
    apply quiet_render, quiet_marker. }
  split; [apply (C83_render_target_known some_off empty_graph ex_regions _ _ _ _ (declare_image addOutputColourView 1 [lv 1 1] 0 0 0 9) ex_regions_ok HF PT HT); [left; reflexivity|reflexivity|repeat split]|].
  split; [|split].
  - intros r [<-|[<-|[]]] En; [|discriminate En]. split; [|split; [apply careful_marker|intros f []]]. split; [|intros f []].
    intros a [<-|[<-|[]]]; (split; [first [apply near_self|apply near_other; discriminate]|]); intros _ S; [split; [reflexivity|left; reflexivity]|exfalso; destruct S as (S & _); discriminate S].
  - split; [|intros f []]. intros a [<-|[<-|[]]]; (split; [first [apply near_self|apply near_other; discriminate]|]); intros _ S; [exfalso; destruct S as (S & _); discriminate S|split; [reflexivity|left; reflexivity]].
  - intros p q w a _ Hq _ Hx. destruct Hq as [<-|[<-|[<-|[<-|[]]]]]; cbn in Hx; try contradiction. destruct Hx as [E|[]]. injection E as <- <-.
    cbn [careful_action]. split; [apply near_self|]. split; [left; reflexivity|]. split; [apply ok_lv|]. left. discriminate.
Qed.

(** C84: what the declared inputs, the graphs before or the previous recording tell about a view is enough for its contents to reach a
    pass that reads it, if the passes before do not write it and only declare it as an input. *)
Theorem C84_inputs_reach_pass_partial : forall e g deps l0 q l1 v,
  let passes := l0 ++ q :: l1 in
  view_ok v -> quiet_env e -> (forall r, In r passes -> quiet_pass r) -> e_enabled e (rp_id q) = true ->
  said g (start_context e deps passes) v <> L_UNDEFINED ->
  (forall r, In r l0 -> e_enabled e (rp_id r) = true -> careful_pass false g v r) ->
  careful_before false g v q -> careful_actions false e g v (l0 ++ [q]) passes ->
  exists before cq tail,
    snd (fst (record_graph e g deps passes)) = before ++ snd (rp_record q cq (rp_index q)) ++ tail /\ Forall (preserves v) before /\ said g cq v <> L_UNDEFINED.
Proof.
  intros e g deps l0 q l1 v passes Hv Qe Q Eq Hs Hl Hq Ha. rewrite record_loop_graph. cbn zeta. cbn [fst snd].
  apply (flows_to_body e g Qe v Hv false (l0 ++ [q]) passes l0 q l1 (start_context e deps passes)); try assumption.
  - intros x Hx. apply in_or_app. left. exact Hx.
  - apply in_or_app. right. left. reflexivity.
  - intros x Hx. apply in_or_app. left. exact Hx.
  - apply in_or_app. right. left. reflexivity.
  - intros x Hx. apply Q, in_or_app. left. exact Hx.
  - apply start_registered.
Qed.
Print Assumptions C84_inputs_reach_pass_partial.

(** C85: as long as every frame uses a view (or its layout is a declared input), and no pass writes it, nothing in any number of frames
    discards or overwrites its contents. *)
Theorem C85_contents_kept_over_frames_partial : forall l g v,
  view_ok v -> frames_careful g v l -> input_layout g v <> L_UNDEFINED \/ known_layout (g_final g) v <> L_UNDEFINED ->
  Forall (preserves v) (frames_commands g l).
Proof.
  induction l as [|f l IH]; intros g v Hv H A; [constructor|]. cbn [frames_careful frames_commands] in *. destruct H as [Hf Hl].
  assert (S : said g (start_context (fr_env f) (fr_deps f) (fr_passes f)) v <> L_UNDEFINED).
  { rewrite said_spec. destruct (N.eqb_spec (known_layout (start_context (fr_env f) (fr_deps f) (fr_passes f)) v) L_UNDEFINED) as [Z|Z]; [|exact Z].
    fold (input_layout g v). destruct (N.eqb_spec (input_layout g v) L_UNDEFINED) as [Y|Y]; [|exact Y]. destruct A as [A|A]; [contradiction|exact A]. }
  pose proof (frame_flows v f g Hv Hf S) as G. destruct (record_graph (fr_env f) g (fr_deps f) (fr_passes f)) as [[g' cmds] tr]. cbn [fst] in Hl. destruct G as [P A'].
  apply Forall_app. split; [exact P|]. apply IH; assumption.
Qed.
Print Assumptions C85_contents_kept_over_frames_partial.

(* An image declared as an input of the graph in the sampled layout: a pass samples it, a disabled pass is replaced by a clear of another image, and
   the last pass copies from it. *)
Definition flow_input : list rpass := [marker_pass 2 [declare_image addSampledView 2 [lv 1 1] 0 0 0 0; declare_image addOutputStorageView 2 [lv 3 3] 1 0 0 0] [] true;
  off_pass 4 [(lv 2 2, AClear [lv 2 2] L_SHADER_READ_ONLY)]].
Lemma said_lv g c l : known_layout c (lv 1 1) = L_UNDEFINED -> input_layout g (lv 1 1) = l -> l <> L_UNDEFINED -> said g c (lv 1 1) <> L_UNDEFINED.
Proof. intros H1 H2 H3. rewrite said_spec. rewrite H1. cbn [N.eqb L_UNDEFINED]. fold (input_layout g (lv 1 1)). rewrite H2. destruct (N.eqb_spec l L_UNDEFINED) as [E|E]; [contradiction|exact H3]. Qed.
Lemma quiet_marker_pass id a b cmp : quiet_pass (marker_pass id a b cmp).
Proof. intros f [[]|[[]| -> ]]. apply quiet_marker. Qed.
Lemma quiet_off_pass id acts : quiet_pass (off_pass id acts).
Proof. intros f [[]|[[]| -> ]]. apply quiet_marker. Qed.
Example C84_applies :
  let g := flow_graph L_SHADER_READ_ONLY in let passes := flow_input ++ flow_last :: [] in
  (quiet_env some_off /\ (forall r, In r passes -> quiet_pass r) /\ said g (start_context some_off [] passes) (lv 1 1) <> L_UNDEFINED /\
   (forall r, In r flow_input -> e_enabled some_off (rp_id r) = true -> careful_pass false g (lv 1 1) r) /\
   careful_before false g (lv 1 1) flow_last /\ careful_actions false some_off g (lv 1 1) (flow_input ++ [flow_last]) passes) /\
  (* the transition to the layout of the last pass does not discard the contents *)
  In (CImageBarrier 1 (rng 0 1 0 1) S_FRAGMENT S_TRANSFER A_SHADER_READ A_TRANSFER_READ L_SHADER_READ_ONLY L_TRANSFER_SRC) (snd (fst (record_graph some_off g [] passes))).
Proof.
  intros g passes. split; [|vm_compute; tauto].
  split; [apply quiet_actions; reflexivity|]. split; [intros r [<-|[<-|[<-|[]]]]; [apply quiet_marker_pass|apply quiet_off_pass|apply quiet_marker_pass]|].
  split; [apply (said_lv g _ L_SHADER_READ_ONLY); [vm_compute; reflexivity|vm_compute; reflexivity|discriminate]|].
  split; [|split].
  - intros r [<-|[<-|[]]] En; [|discriminate En]. split; [|split; [apply careful_marker|intros f []]]. split; [|intros f []].
    intros a [<-|[<-|[]]]; (split; [first [apply near_self|apply near_other; discriminate]|]); intros _ S; [split; [reflexivity|right; reflexivity]|exfalso; destruct S as (S & _); discriminate S].
  - split; [|intros f []]. intros a [<-|[<-|[]]]; (split; [first [apply near_self|apply near_other; discriminate]|]); intros _ S; [exfalso; destruct S as (S & _); discriminate S|split; [reflexivity|right; reflexivity]].
  - intros p q w a _ Hq _ Hx. destruct Hq as [<-|[<-|[<-|[]]]]; cbn in Hx; try contradiction. destruct Hx as [E|[]]. injection E as <- <-.
    cbn [careful_action]. split; [apply ok_lv|]. left. discriminate.
Qed.
(** Not so for the source of an implicit copy: the declared inputs are not looked up, and its contents are discarded before they are copied. *)
Theorem C84_implicit_source_refuted :
  let g := flow_graph L_SHADER_READ_ONLY in
  let passes := [off_pass 4 [(lv 2 2, ACopy (lv 1 1) (lv 2 2) 16 16 L_SHADER_READ_ONLY)]; sampling_pass [lv 2 2]] in
  exists before after, snd (fst (record_graph some_off g [] passes)) =
    before ++ CCopyImage 1 L_TRANSFER_SRC 2 L_TRANSFER_DST (rng 0 1 0 1) (rng 0 1 0 1) 16 16 :: after /\
    input_layout g (lv 1 1) = L_SHADER_READ_ONLY /\ ~ Forall (preserves (lv 1 1)) before.
Proof.
  cbv zeta. exists (firstn 4 (snd (fst (record_graph some_off (flow_graph L_SHADER_READ_ONLY) [] [off_pass 4 [(lv 2 2, ACopy (lv 1 1) (lv 2 2) 16 16 L_SHADER_READ_ONLY)]; sampling_pass [lv 2 2]])))).
  exists (skipn 5 (snd (fst (record_graph some_off (flow_graph L_SHADER_READ_ONLY) [] [off_pass 4 [(lv 2 2, ACopy (lv 1 1) (lv 2 2) 16 16 L_SHADER_READ_ONLY)]; sampling_pass [lv 2 2]])))).
  split; [vm_compute; reflexivity|]. split; [vm_compute; reflexivity|]. intro H. rewrite Forall_forall in H.
  specialize (H (CImageBarrier 1 (rng 0 1 0 1) S_HOST S_TRANSFER 0 A_TRANSFER_READ L_UNDEFINED L_TRANSFER_SRC)).
  assert (I : preserves (lv 1 1) (CImageBarrier 1 (rng 0 1 0 1) S_HOST S_TRANSFER 0 A_TRANSFER_READ L_UNDEFINED L_TRANSFER_SRC)) by (apply H; vm_compute; tauto).
  destruct I as [[I|I]|I]; [apply I; reflexivity| |apply I; reflexivity]. apply (I 0 0); unfold in_range; cbn; lia.
Qed.
Print Assumptions C84_implicit_source_refuted.

(* A pass updates an image that it declares as an input and an output: its contents go from one frame to the next ... *)
Definition accumulate : rpass := marker_pass 1 [declare_image addInOutStorageView 1 [lv 1 1] 0 0 0 0] [] true.
Definition flow_frame (e : env) : frame := {| fr_env := e; fr_deps := []; fr_passes := [accumulate; flow_last]; fr_start := fun _ _ _ => L_UNDEFINED |}.
Definition flow_first : rgraph := fst (fst (record_graph all_on empty_graph [] [accumulate; flow_last])).
Lemma accumulate_careful own g : careful_pass own g (lv 1 1) accumulate.
Proof.
  split; [|split; [apply careful_marker|intros f []]]. split; [|intros f []]. intros a [<-|[]]. split; [apply near_self|]. intros _ _. split; [reflexivity|right; reflexivity].
Qed.
Lemma last_careful own g : careful_pass own g (lv 1 1) flow_last.
Proof.
  split; [|split; [apply careful_marker|intros f []]]. split; [|intros f []]. intros a [<-|[<-|[]]]; (split; [first [apply near_self|apply near_other; discriminate]|]); intros _ S; [exfalso; destruct S as (S & _); discriminate S|split; [reflexivity|right; reflexivity]].
Qed.
Lemma flow_frame_careful g : frame_careful g (lv 1 1) (flow_frame all_on).
Proof.
  split; [apply quiet_actions; reflexivity|]. split; [intros r [<-|[<-|[]]]; apply quiet_marker_pass|]. split.
  { intros r [<-|[<-|[]]] _; split; first [apply accumulate_careful|apply last_careful]. }
  split; [intros p q w a _ Hq _ Hx; destruct Hq as [<-|[<-|[]]]; destruct Hx|]. split; [intros p q w a _ Hq _ Hx; destruct Hq as [<-|[<-|[]]]; destruct Hx|].
  right. exists accumulate. split; [left; reflexivity|]. split; [reflexivity|]. left. split; [|split].
  - eexists. split; [left; reflexivity|]. split; [repeat split|]. split; [reflexivity|vm_compute; discriminate].
  - intros a [<-|[]]. apply near_self.
  - intros f [[]| -> ] c K. exact K.
Qed.
Example C85_applies : forall n, frames_careful flow_first (lv 1 1) (repeat (flow_frame all_on) n) /\ known_layout (g_final flow_first) (lv 1 1) <> L_UNDEFINED.
Proof.
  intro n. split; [|vm_compute; discriminate]. generalize flow_first as g. induction n as [|n IH]; intro g; [exact I|]. cbn [repeat frames_careful]. split; [apply flow_frame_careful|apply IH].
Qed.
(** ... but not over a frame that does not use the image: when the passes are enabled again the contents are discarded. *)
Definition none_on : env := {| e_separate := false; e_enabled := fun _ => false; e_action := fun t c _ => (c, [CUser t]) |}.
Theorem C85_unused_frame_refuted :
  known_layout (g_final flow_first) (lv 1 1) <> L_UNDEFINED /\ ~ Forall (preserves (lv 1 1)) (frames_commands flow_first [flow_frame none_on; flow_frame all_on]) /\
  Forall (preserves (lv 1 1)) (frames_commands flow_first [flow_frame all_on; flow_frame all_on]).
Proof.
  split; [vm_compute; discriminate|]. split.
  - intro H. rewrite Forall_forall in H.
    assert (I : preserves (lv 1 1) (CImageBarrier 1 (rng 0 1 0 1) S_HOST S_BOTTOM 0 0 L_UNDEFINED L_GENERAL)) by (apply H; vm_compute; tauto).
    destruct I as [[I|I]|I]; [apply I; reflexivity| |apply I; reflexivity]. apply (I 0 0); unfold in_range; cbn; lia.
  - apply (C85_contents_kept_over_frames_partial [flow_frame all_on; flow_frame all_on] flow_first (lv 1 1)); [apply ok_lv| |right; vm_compute; discriminate].
    apply (C85_applies 2).
Qed.
Print Assumptions C85_unused_frame_refuted.
