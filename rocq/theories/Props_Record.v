(* C15-C20, C35, C36, C38: recording of barriers and of a pass. *)
From Verif Require Import Spec_Record Proof_Layout Proof_Record.
From Coq Require Import ZifyBool ZifyNat ZifyN.
Local Open Scope N_scope.

Definition img (i : N) : image := {| i_id := i; i_width := 16; i_height := 16; i_depth := 1; i_levels := 5; i_layers := 6; i_format := 37 |}.
Definition rng (mip levels layer layers : N) : srange :=
  {| r_aspect := ASPECT_COLOR; r_mip := mip; r_levels := levels; r_layer := layer; r_layers := layers |}.
Definition vw (id i : N) (r : srange) : view := mkView id (img i) 0 VT_2D_ARRAY 37 r [].
Definition all_on : env := {| e_separate := false; e_enabled := fun _ => true; e_action := fun t c _ => (c, [CUser t]) |}.
Definition empty_graph : rgraph := {| g_inputs := []; g_outputs := []; g_final := new_rctx |}.

(** C15. *)
Theorem C15_barrier_exactly_when_needed : forall sep c im vt r initial wanted force,
  let known := known_state c im vt r initial in
  let needed := force = true \/ (ls_layout wanted <> L_UNDEFINED /\
      (ls_layout known <> ls_layout wanted \/ ps_stage (ls_state known) <> ps_stage (ls_state wanted))) in
  let '(c', cmds) := memoryBarrier sep c im vt r initial wanted force in
  (needed -> cmds = [CImageBarrier (i_id im)
      {| r_aspect := barrier_aspect sep (i_format im) (r_aspect r); r_mip := r_mip r; r_levels := r_levels r; r_layer := r_layer r; r_layers := r_layers r |}
      (ps_stage (ls_state known)) (ps_stage (ls_state wanted)) (ps_access (ls_state known)) (ps_access (ls_state wanted)) (ls_layout known) (ls_layout wanted)]) /\
  (~ needed -> cmds = [] /\ c' = c).
Proof.
  intros sep c im vt r initial wanted force. cbv zeta.
  assert (A : adaptRange sep (i_format im) r = {| r_aspect := barrier_aspect sep (i_format im) (r_aspect r); r_mip := r_mip r; r_levels := r_levels r; r_layer := r_layer r; r_layers := r_layers r |}).
  { unfold adaptRange, barrier_aspect. destruct sep; cbn; [destruct r; reflexivity|].
    destruct (isDepthStencilFormat (i_format im)); cbn; [|destruct r; reflexivity].
    destruct (orb _ _); [reflexivity|destruct r; reflexivity]. }
  destruct (barrier_cases sep c im vt r initial wanted force) as [[Hn ->]|[Hn ->]]; unfold needs_barrier in Hn.
  - rewrite A. split; [reflexivity|]. intro H. exfalso. apply H. destruct Hn as [|[? ?]]; [left|right]; auto.
  - split; [|auto]. intro H. exfalso. apply Hn. destruct H as [|[? ?]]; [left|right]; auto.
Qed.
Print Assumptions C15_barrier_exactly_when_needed.

(* When a barrier is recorded, what is known of each covered subresource is the requested state, and
   what is known of everything else is as before. *)
Theorem C15_state_after_barrier : forall sep c im vt r initial wanted force,
  vt <> VT_3D -> valid_range r -> snd (memoryBarrier sep c im vt r initial wanted force) <> [] ->
  let c' := fst (memoryBarrier sep c im vt r initial wanted force) in
  (forall layer mip, in_range r layer mip -> subresource_state c' (i_id im) layer mip = Some wanted) /\
  (forall i layer mip, i <> i_id im \/ ~ in_range r layer mip -> subresource_state c' i layer mip = subresource_state c i layer mip) /\
  rc_buffers c' = rc_buffers c /\ rc_implicit c' = rc_implicit c.
Proof.
  intros sep c im vt r initial wanted force Ht Hr.
  destruct (barrier_cases sep c im vt r initial wanted force) as [[Hn ->]|[Hn ->]]; cbn [fst snd]; [|intro H; contradiction].
  intros _. split; [|split; [|split; reflexivity]].
  - intros layer mip Hi. rewrite set_subresource by assumption. rewrite N.eqb_refl. apply in_rangeb_spec in Hi. rewrite Hi. reflexivity.
  - intros i layer mip Hi. rewrite set_subresource by assumption.
    destruct (N.eqb_spec (i_id im) i) as [E|E]; [|reflexivity]. destruct (in_rangeb r layer mip) eqn:F; [|reflexivity].
    apply in_rangeb_spec in F. destruct Hi as [Hi|Hi]; [congruence|contradiction].
Qed.
Print Assumptions C15_state_after_barrier.

Theorem C15_barrier_idempotent : forall sep c im vt r initial initial' wanted force,
  vt <> VT_3D -> valid_range r -> initial' = initial \/ ls_layout wanted <> L_UNDEFINED /\ snd (memoryBarrier sep c im vt r initial wanted force) <> [] ->
  let c' := fst (memoryBarrier sep c im vt r initial wanted force) in
  memoryBarrier sep c' im vt r initial' wanted false = (c', []).
Proof.
  intros sep c im vt r initial initial' wanted force Ht Hr Hi. cbv zeta.
  destruct (barrier_cases sep c im vt r initial wanted force) as [[Hn E]|[Hn E]]; rewrite E in *; cbn [fst snd] in *.
  - destruct (barrier_cases sep (rc_setLayoutState c im vt r wanted) im vt r initial' wanted false) as [[Hn2 ->]|[_ ->]]; [|reflexivity].
    exfalso. destruct Hn2 as [?|[D U]]; [discriminate|]. unfold known_state in D.
    assert (G : rc_getLayoutState (rc_setLayoutState c im vt r wanted) im vt r = wanted).
    { unfold rc_getLayoutState, rc_setLayoutState. cbn. apply set_get_not3d; auto. intros ? ? H; exact H. }
    rewrite G in D. destruct (N.eqb_spec (ls_layout wanted) L_UNDEFINED); [contradiction|]. tauto.
  - destruct Hi as [->|[_ Hi]]; [|contradiction].
    destruct (barrier_cases sep c im vt r initial wanted false) as [[Hn2 ->]|[_ ->]]; [|reflexivity].
    exfalso. apply Hn. destruct Hn2 as [?|?]; [discriminate|right; assumption].
Qed.
Print Assumptions C15_barrier_idempotent.
Example C15_applies : snd (memoryBarrier false new_rctx (img 1) VT_2D (rng 1 2 0 3) L_UNDEFINED (makeLayoutState L_GENERAL) false) <> [] /\ valid_range (rng 1 2 0 3).
Proof. split; [vm_compute; discriminate|unfold valid_range, rng; simpl; repeat split; lia]. Qed.

(* "The tracked state is then the requested one" does not always hold: nothing is recorded, nor
   tracked, when an unknown range is said to be in the requested layout already... *)
Theorem C51_known_after_refuted : exists c im vt r initial wanted,
  vt <> VT_3D /\ valid_range r /\ ls_layout wanted <> L_UNDEFINED /\
  let c' := fst (memoryBarrier false c im vt r initial wanted false) in
  ls_layout (rc_getLayoutState c' im vt r) = L_UNDEFINED.
Proof.
  exists new_rctx, (img 1), VT_2D, (rng 0 1 0 1), L_GENERAL, (makeLayoutState L_GENERAL).
  split; [discriminate|]. split; [unfold valid_range, rng; simpl; repeat split; lia|]. split; [discriminate|reflexivity].
Qed.
Print Assumptions C51_known_after_refuted.
(* ... and an access is neither synchronised nor tracked when the layout and the stage are the known ones. *)
Theorem C51_access_change_ignored_refuted : exists c im vt r w,
  rc_getLayoutState c im vt r = mk_lstate L_GENERAL A_SHADER_WRITE S_COMPUTE /\
  w = mk_lstate L_GENERAL A_SHADER_READ S_COMPUTE /\
  memoryBarrier false c im vt r L_UNDEFINED w false = (c, []).
Proof.
  exists (rc_setLayoutState new_rctx (img 1) VT_2D (rng 0 1 0 1) (mk_lstate L_GENERAL A_SHADER_WRITE S_COMPUTE)), (img 1), VT_2D, (rng 0 1 0 1), (mk_lstate L_GENERAL A_SHADER_READ S_COMPUTE).
  repeat split; vm_compute; reflexivity.
Qed.
Print Assumptions C51_access_change_ignored_refuted.
(* The layout and the stage are the requested ones in all the other cases. *)
Theorem C51_known_after_partial : forall sep c v initial wanted,
  view_ok v -> ls_layout wanted <> L_UNDEFINED ->
  known_layout c v <> L_UNDEFINED \/ initial <> ls_layout wanted \/ getStageMask initial <> ps_stage (ls_state wanted) ->
  let s := rc_getLayoutState (fst (memoryBarrier_view sep c v initial wanted)) (v_image v) (v_type v) (v_range v) in
  ls_layout s = ls_layout wanted /\ ps_stage (ls_state s) = ps_stage (ls_state wanted).
Proof.
  intros sep c v initial wanted Hv Hw Hk. cbv zeta. unfold memoryBarrier_view.
  destruct (barrier_cases sep c (v_image v) (v_type v) (v_range v) initial wanted false) as [[Hn ->]|[Hn ->]]; cbn [fst].
  - rewrite get_set_view by exact Hv. auto.
  - unfold needs_barrier, known_state in Hn. fold (known_layout c v) in Hn. destruct (N.eqb_spec (known_layout c v) L_UNDEFINED) as [E|E].
    + exfalso. apply Hn. right. split; [|exact Hw]. destruct Hk as [?|[?|?]]; [contradiction|left|right]; assumption.
    + unfold known_layout in *. split.
      * destruct (N.eq_dec (ls_layout (rc_getLayoutState c (v_image v) (v_type v) (v_range v))) (ls_layout wanted)) as [H|H]; [exact H|].
        exfalso. apply Hn. right. split; [left; exact H|exact Hw].
      * destruct (N.eq_dec (ps_stage (ls_state (rc_getLayoutState c (v_image v) (v_type v) (v_range v)))) (ps_stage (ls_state wanted))) as [H|H]; [exact H|].
        exfalso. apply Hn. right. split; [right; exact H|exact Hw].
Qed.
Print Assumptions C51_known_after_partial.

(** C16. *)
(* After any history, a barrier on a range that is really in one layout starts from that layout, and a
   barrier on a range never touched starts from the layout given by the caller. *)
Theorem C16_source_of_uniform_range_partial : forall sep history q l b,
  (forall x, In x history -> valid_range (q_range x) /\ q_type x <> VT_3D) ->
  valid_range (q_range q) -> q_type q <> VT_3D ->
  let '(c, cmds) := do_requests sep new_rctx history in
  In b (snd (do_request sep c q)) ->
  (l <> L_UNDEFINED ->
   (forall layer mip, in_range (q_range q) layer mip -> real_layout cmds (i_id (q_image q)) layer mip = Some l) ->
   old_layout b = Some l) /\
  ((forall layer mip, in_range (q_range q) layer mip -> real_layout cmds (i_id (q_image q)) layer mip = None) ->
   old_layout b = Some (q_initial q)).
Proof.
  intros sep history q l b Hh Hr Ht. destruct (do_requests sep new_rctx history) as [c cmds] eqn:E. intro Hb.
  assert (A : agrees c cmds) by (apply (agrees_requests sep history new_rctx [] c cmds); auto using agrees_new).
  split; [intros Hl H; apply (barrier_source_real sep c cmds q l b); auto | intro H; apply (barrier_source_initial sep c cmds q b); auto].
Qed.
Print Assumptions C16_source_of_uniform_range_partial.

(* If the ranges used on each image are pairwise the same or disjoint, every barrier of the history
   starts from the real layout of each covered subresource, or from the caller's one if there is none. *)
Theorem C16_partitioned_history_partial : forall sep before q after_ b layer mip,
  (forall x, In x (before ++ q :: after_) -> request_ok x) -> partitioned (before ++ q :: after_) ->
  let '(c, cmds) := do_requests sep new_rctx before in
  In b (snd (do_request sep c q)) -> in_range (q_range q) layer mip ->
  old_layout b = Some (match real_layout cmds (i_id (q_image q)) layer mip with Some l => l | None => q_initial q end).
Proof.
  intros sep before q after_ b layer mip Hok Hp. destruct (do_requests sep new_rctx before) as [c cmds] eqn:E. intros Hb Hi.
  assert (Hb' : forall x, In x before -> request_ok x) by (intros; apply Hok, in_or_app; auto).
  destruct (Hok q (in_elt q before after_)) as (Hr & Ht & Hw).
  assert (A : agrees c cmds).
  { apply (agrees_requests sep before new_rctx [] c cmds); auto using agrees_new. intros x Hx. destruct (Hb' x Hx) as (? & ? & ?). auto. }
  assert (U : uniform_in cmds (i_id (q_image q)) (q_range q)).
  { replace cmds with ([] ++ snd (do_requests sep new_rctx before)) by (rewrite E; reflexivity).
    apply uniform_all; [|left; reflexivity]. intros x Hx. split; [apply Hb'; exact Hx|]. intro Ei.
    apply Hp; auto using in_elt. apply in_or_app; auto. }
  destruct U as [U|(l & Hl & U)].
  - rewrite (U layer mip Hi). apply (barrier_source_initial sep c cmds q b); auto.
  - rewrite (U layer mip Hi). apply (barrier_source_real sep c cmds q l b); auto.
Qed.
Print Assumptions C16_partitioned_history_partial.
Definition rq (mip levels layer layers l : N) : request :=
  {| q_image := img 1; q_type := VT_2D_ARRAY; q_range := rng mip levels layer layers; q_initial := L_UNDEFINED; q_wanted := makeLayoutState l; q_force := false |}.
Example C16_applies : partitioned [rq 0 1 0 1 L_TRANSFER_DST; rq 0 1 1 1 L_GENERAL; rq 0 1 0 1 L_SHADER_READ_ONLY] /\
  map old_layout (snd (do_requests false new_rctx [rq 0 1 0 1 L_TRANSFER_DST; rq 0 1 1 1 L_GENERAL; rq 0 1 0 1 L_SHADER_READ_ONLY]))
  = [Some L_UNDEFINED; Some L_UNDEFINED; Some L_TRANSFER_DST].
Proof.
  split; [|vm_compute; reflexivity].
  intros q q' H H' _. cbn in H, H'. unfold disjoint_ranges, in_range.
  destruct H as [H|[H|[H|[]]]]; destruct H' as [H'|[H'|[H'|[]]]]; subst; cbn; solve [left; intros; reflexivity | right; intros; lia].
Qed.

(* In general the source layout is neither real nor UNDEFINED: two layers in different layouts. *)
Theorem C16_mixed_ranges_refuted : exists history q b layer mip,
  (forall x, In x (history ++ [q]) -> request_ok x) /\
  let '(c, cmds) := do_requests false new_rctx history in
  In b (snd (do_request false c q)) /\ in_range (q_range q) layer mip /\
  old_layout b <> real_layout cmds (i_id (q_image q)) layer mip /\ old_layout b <> Some L_UNDEFINED.
Proof.
  exists [rq 0 1 0 1 L_SHADER_READ_ONLY; rq 0 1 1 1 L_COLOR_ATTACHMENT], (rq 0 1 0 2 L_TRANSFER_SRC).
  eexists. exists 0, 0. split.
  { intros x Hx. unfold request_ok, valid_range. cbn in Hx. destruct Hx as [<-|[<-|[<-|[]]]]; cbn; repeat split; discriminate. }
  vm_compute. split; [left; reflexivity|]. repeat split; discriminate.
Qed.
Print Assumptions C16_mixed_ranges_refuted.

(** C17: false. *)
Definition st_view : view := vw 7 1 (rng 0 1 0 1).
Theorem C17_storage_barrier_refuted : exists e g p q,
  (* the first pass writes a storage image and the second one reads it *)
  rp_images p = [declare_image addOutputStorageView 1 [st_view] 0 0 0 0] /\
  rp_images q = [declare_image addInputStorageView 2 [st_view] 0 0 0 0] /\
  no_barrier_between 1 2 (snd (record_all e g [p; q] new_rctx)).
Proof.
  exists all_on, empty_graph,
    (marker_pass 1 [declare_image addOutputStorageView 1 [st_view] 0 0 0 0] [] true),
    (marker_pass 2 [declare_image addInputStorageView 2 [st_view] 0 0 0 0] [] true).
  split; [reflexivity|]. split; [reflexivity|].
  exists [CBeginBlock 1; CTimerBegin 1; CImageBarrier 1 (rng 0 1 0 1) S_HOST S_BOTTOM 0 0 L_UNDEFINED L_GENERAL],
         [CTimerEnd 1; CEndBlock; CBeginBlock 2; CTimerBegin 2], [CTimerEnd 2; CEndBlock].
  split; vm_compute; reflexivity.
Qed.
Print Assumptions C17_storage_barrier_refuted.

(* A barrier is recorded before the reader when the image was moved to another layout in between. *)
Theorem C17_storage_barrier_after_other_layout_partial : forall e g p a c,
  let v := attach_view a (rp_index p) in
  view_ok v -> isStorageView a = true -> isNoTransition a = false -> isSampledView a = false -> isTransitionView a = false -> isClearableImage a = false ->
  rc_implicit c = [] -> known_layout c v <> L_UNDEFINED -> known_layout c v <> L_GENERAL ->
  exists r s1 s2 a1 a2, snd (record_image e g p a c) = [CImageBarrier (i_id (v_image v)) r s1 s2 a1 a2 (known_layout c v) L_GENERAL]
    /\ (forall layer mip, in_range r layer mip <-> in_range (v_range v) layer mip).
Proof.
  intros e g p a c v Hv Hs Hn Hsa Htr Hc Hi Hu Hg. unfold record_image. rewrite runImplicit_none by exact Hi. cbn [seq2].
  fold (has_transition a). assert (T : has_transition a = true) by (unfold has_transition; rewrite Hn, Hs; cbn; rewrite orb_true_r; reflexivity).
  rewrite T. fold v.
  assert (L : a_getImageLayout a (e_separate e) = L_GENERAL).
  { unfold a_getImageLayout, i_getImageLayout. unfold isStorageView, isSampledView, isTransitionView in *. 
    apply andb_prop in Hs. destruct Hs as [Hs0 Hs1]. rewrite Hs0 in *. cbn in Hsa, Htr. rewrite Hsa, Htr, Hs1. reflexivity. }
  rewrite L.
  assert (C : (if isInput a then getCurrentLayoutState g c (v_image v) (v_type v) (v_range v) else (c, makeLayoutState L_UNDEFINED)) =
     (c, if isInput a then rc_getLayoutState c (v_image v) (v_type v) (v_range v) else makeLayoutState L_UNDEFINED)).
  { destruct (isInput a); [|reflexivity]. unfold getCurrentLayoutState. fold (known_layout c v).
    destruct (N.eqb_spec (known_layout c v) L_UNDEFINED); [contradiction|reflexivity]. }
  rewrite C, Hc. set (cur := if isInput a then _ else _). unfold memoryBarrier_view.
  assert (K : ls_layout (known_state c (v_image v) (v_type v) (v_range v) (ls_layout cur)) = known_layout c v).
  { unfold known_state. fold (known_layout c v). destruct (N.eqb_spec (known_layout c v) L_UNDEFINED); [contradiction|reflexivity]. }
  destruct (barrier_cases (e_separate e) c (v_image v) (v_type v) (v_range v) (ls_layout cur) (makeLayoutState L_GENERAL) false) as [[H E]|[H E]].
  - rewrite E. rewrite K. do 5 eexists. split; [reflexivity|]. intros; apply adapt_in_range.
  - exfalso. apply H. right. split; [left; rewrite K; exact Hg|discriminate].
Qed.
Print Assumptions C17_storage_barrier_after_other_layout_partial.
Example C17_applies :
  let a := declare_image addInputStorageView 2 [st_view] 0 0 0 0 in
  view_ok (attach_view a 0) /\ isStorageView a = true /\ isNoTransition a = false /\ isSampledView a = false /\ isTransitionView a = false /\ isClearableImage a = false.
Proof. cbv zeta. split; [split; [unfold valid_range; vm_compute; repeat split; discriminate|discriminate]|]. repeat split; vm_compute; reflexivity. Qed.

(** C18. *)
Theorem C18_buffer_barrier_exactly_when_needed : forall c b offset size mask stage wanted force,
  let known := known_access c b mask stage in
  let needed := force = true \/ ps_access known <> ps_access wanted \/ ps_stage known <> ps_stage wanted in
  let '(c', cmds) := bufferBarrier c b offset size mask stage wanted force in
  (needed -> cmds = [CBufferBarrier b offset size (ps_stage known) (ps_stage wanted) (ps_access known) (ps_access wanted)] /\
             getAccessState c' b = wanted /\ (forall b', b' <> b -> getAccessState c' b' = getAccessState c b') /\
             rc_images c' = rc_images c /\ rc_implicit c' = rc_implicit c) /\
  (~ needed -> cmds = [] /\ c' = c).
Proof.
  intros c b offset size mask stage wanted force. cbv zeta.
  destruct (buffer_cases c b offset size mask stage wanted force) as [[Hn ->]|[Hn ->]]; (split; [intro H|intro H]); try contradiction; auto.
  split; [reflexivity|]. split; [unfold getAccessState; cbn; rewrite mfind_mput_same; reflexivity|].
  split; [|split; reflexivity]. intros b' Hb. unfold getAccessState. cbn. rewrite mfind_mput_other; auto.
Qed.
Print Assumptions C18_buffer_barrier_exactly_when_needed.

Theorem C18_buffer_barrier_idempotent_partial : forall c b offset size offset' size' mask stage mask' stage' wanted force,
  ps_stage wanted <> S_BOTTOM -> snd (bufferBarrier c b offset size mask stage wanted force) <> [] ->
  let c' := fst (bufferBarrier c b offset size mask stage wanted force) in
  bufferBarrier c' b offset' size' mask' stage' wanted false = (c', []).
Proof.
  intros c b offset size offset' size' mask stage mask' stage' wanted force Hs. cbv zeta.
  destruct (buffer_cases c b offset size mask stage wanted force) as [[Hn ->]|[Hn ->]]; cbn [fst snd]; [|intro H; contradiction].
  intros _. set (c' := set_buffers c _).
  assert (K : known_access c' b mask' stage' = wanted).
  { unfold known_access, c'. cbn. rewrite mfind_mput_same. destruct (N.eqb_spec (ps_stage wanted) S_BOTTOM); [contradiction|reflexivity]. }
  destruct (buffer_cases c' b offset' size' mask' stage' wanted false) as [[Hn' _]|[_ ->]]; [|reflexivity].
  exfalso. rewrite K in Hn'. destruct Hn' as [?|[?|?]]; [discriminate|tauto|tauto].
Qed.
Print Assumptions C18_buffer_barrier_idempotent_partial.

(* A state at the bottom of the pipe is taken for an unknown one. *)
Theorem C18_bottom_of_pipe_refuted : exists c b wanted mask stage,
  getAccessState c b = wanted /\ snd (bufferBarrier c b 0 16 mask stage wanted false) <> [].
Proof.
  exists (set_buffers new_rctx [(3, {| ps_access := A_SHADER_WRITE; ps_stage := S_BOTTOM |})]), 3, {| ps_access := A_SHADER_WRITE; ps_stage := S_BOTTOM |}, 0, S_COMPUTE.
  split; [reflexivity|discriminate].
Qed.
Print Assumptions C18_bottom_of_pipe_refuted.

(** C19. *)
Definition outB (pass buf off size : N) := declare_buffer addOutputStorageBuffer pass [buf] 0 0 off size no_pstate 0.
Definition inB (pass buf off size : N) := declare_buffer addInputStorageBuffer pass [buf] 0 0 off size no_pstate 0.
Definition uniB (pass buf off size : N) := declare_buffer addUniformBuffer pass [buf] 0 0 off size no_pstate 0.

(* A pass reading a storage buffer records a barrier, on the range it reads, if the last tracked use is
   a write of a storage buffer (any range): whatever happened before the write and in between. *)
Definition out_method (m : buffer_method) : Prop := In m [addOutputStorageBuffer; addOutputStorageBufferView; addInOutStorageBuffer; addInOutStorageBufferView].
Definition in_method (m : buffer_method) : Prop := In m [addInputStorageBuffer; addInputStorageBufferView].
Theorem C19_write_then_read_storage_partial : forall m1 m2 p1 p2 b bind1 bind2 bv1 bv2 off1 size1 off2 size2 c c2,
  out_method m1 -> in_method m2 ->
  let a1 := declare_buffer m1 (rp_id p1) [b] bind1 bv1 off1 size1 no_pstate 0 in
  let a2 := declare_buffer m2 (rp_id p2) [b] bind2 bv2 off2 size2 no_pstate 0 in
  let c1 := fst (record_buffer p1 a1 c) in
  getAccessState c2 b = getAccessState c1 b ->
  exists srcAccess, hasFlag srcAccess A_SHADER_WRITE = true /\
  snd (record_buffer p2 a2 c2) =
    [CBufferBarrier b off2 size2 (if rp_compute p1 then S_COMPUTE else S_FRAGMENT) (if rp_compute p2 then S_COMPUTE else S_FRAGMENT) srcAccess A_SHADER_READ].
Proof.
  intros m1 m2 p1 p2 b bind1 bind2 bv1 bv2 off1 size1 off2 size2 c c2 H1 H2 a1 a2 c1 Hc.
  set (st1 := if rp_compute p1 then S_COMPUTE else S_FRAGMENT).
  assert (W : exists acc, hasFlag acc A_SHADER_WRITE = true /\ N.eqb acc A_SHADER_READ = false /\ getAccessState c1 b = {| ps_access := acc; ps_stage := st1 |}).
  { assert (S : ps_stage {| ps_access := a_getAccessMask a1; ps_stage := st1 |} <> S_BOTTOM) by (unfold st1; destruct (rp_compute p1); discriminate).
    exists (a_getAccessMask a1). split; [|split].
    - subst a1; destruct H1 as [<-|[<-|[<-|[<-|[]]]]]; reflexivity.
    - subst a1; destruct H1 as [<-|[<-|[<-|[<-|[]]]]]; reflexivity.
    - assert (E : record_buffer p1 a1 c = bufferBarrier c b off1 size1 (ps_access (getAccessState c b)) (ps_stage (getAccessState c b)) {| ps_access := a_getAccessMask a1; ps_stage := st1 |} false).
      { subst a1 st1; destruct H1 as [<-|[<-|[<-|[<-|[]]]]]; reflexivity. }
      subst c1. rewrite E. pose proof (bbarrier_state c b off1 size1 {| ps_access := a_getAccessMask a1; ps_stage := st1 |} S) as B.
      cbv zeta in B. unfold getAccessState at 1. rewrite B. reflexivity. }
  destruct W as (acc & Hw & Hr & Hg). rewrite Hg in Hc. exists acc. split; [exact Hw|].
  assert (E : record_buffer p2 a2 c2 = bufferBarrier c2 b off2 size2 (ps_access (getAccessState c2 b)) (ps_stage (getAccessState c2 b)) {| ps_access := A_SHADER_READ; ps_stage := if rp_compute p2 then S_COMPUTE else S_FRAGMENT |} false).
  { subst a2; destruct H2 as [<-|[<-|[]]]; reflexivity. }
  rewrite E, Hc. unfold bufferBarrier. rewrite Hc. cbn [ps_access ps_stage].
  assert (B : N.eqb st1 S_BOTTOM = false) by (unfold st1; destruct (rp_compute p1); reflexivity).
  rewrite B. cbn [ps_access ps_stage]. rewrite Hr. reflexivity.
Qed.
Print Assumptions C19_write_then_read_storage_partial.
Example C19_applies : getAccessState (fst (record_buffer (marker_pass 1 [] [] true) (outB 1 9 0 64) new_rctx)) 9 = {| ps_access := A_SHADER_WRITE; ps_stage := S_COMPUTE |}.
Proof. reflexivity. Qed.

(* Two writes of the same buffer: no barrier. *)
Theorem C19_write_after_write_refuted : exists e g p q,
  rp_buffers p = [outB 1 9 0 64] /\ rp_buffers q = [outB 2 9 0 64] /\ no_barrier_between 1 2 (snd (record_all e g [p; q] new_rctx)).
Proof.
  exists all_on, empty_graph, (marker_pass 1 [] [outB 1 9 0 64] true), (marker_pass 2 [] [outB 2 9 0 64] true).
  split; [reflexivity|]. split; [reflexivity|].
  exists [CBeginBlock 1; CTimerBegin 1; CBufferBarrier 9 0 64 S_BOTTOM S_COMPUTE 0 A_SHADER_WRITE],
         [CTimerEnd 1; CEndBlock; CBeginBlock 2; CTimerBegin 2], [CTimerEnd 2; CEndBlock].
  split; vm_compute; reflexivity.
Qed.
Print Assumptions C19_write_after_write_refuted.
(* A write of 128 bytes, a read of the first half, then a read of the second half: the only barrier after
   the write covers the first half. *)
Theorem C19_sub_ranges_refuted : exists e g p q r,
  rp_buffers p = [outB 1 9 0 128] /\ rp_buffers q = [inB 2 9 0 64] /\ rp_buffers r = [inB 3 9 64 64] /\
  filter is_barrier (snd (record_all e g [p; q; r] new_rctx)) =
    [CBufferBarrier 9 0 128 S_BOTTOM S_COMPUTE 0 A_SHADER_WRITE; CBufferBarrier 9 0 64 S_COMPUTE S_COMPUTE A_SHADER_WRITE A_SHADER_READ].
Proof.
  exists all_on, empty_graph, (marker_pass 1 [] [outB 1 9 0 128] true), (marker_pass 2 [] [inB 2 9 0 64] true), (marker_pass 3 [] [inB 3 9 64 64] true).
  repeat split; vm_compute; reflexivity.
Qed.
Print Assumptions C19_sub_ranges_refuted.
(* A uniform buffer written as storage buffer: no barrier, whatever is tracked. *)
Theorem C19_uniform_never_refuted : forall p c b off size, record_buffer p (uniB (rp_id p) b off size) c = (c, []).
Proof. reflexivity. Qed.
Print Assumptions C19_uniform_never_refuted.

(** C20: the code refines one queue per view; the head of the queue is consumed by each run, and
    executed only if its pass is disabled. *)
Theorem C20_implicit_actions_are_queues : forall sep enabled ops,
  impl_trace (tag_env sep enabled) new_rctx ops = map (map CUser) (spec_trace enabled (fun _ => []) ops).
Proof. intros. apply implicit_refines; [intros x []|reflexivity]. Qed.
Print Assumptions C20_implicit_actions_are_queues.
(* The nesting bound of the model is never reached. *)
Theorem C20_enough_fuel : forall e i n c v, (length (rc_implicit c) <= n)%nat -> runImplicit_fuel n e c i v = runImplicit e c i v.
Proof. intros. unfold runImplicit. apply fuel_enough; auto. Qed.
Print Assumptions C20_enough_fuel.
Example C20_trace : impl_trace (tag_env false (fun p => N.eqb p 2)) new_rctx
   [Register 1 st_view 10; Register 2 st_view 20; Register 1 st_view 30; Run st_view; Run st_view; Run st_view; Run st_view]
   = [[]; []; []; [CUser 10]; []; [CUser 30]; []].
Proof. vm_compute. reflexivity. Qed.

(** C35. *)
Theorem C35_disabled_pass_records_nothing : forall e g p c, e_enabled e (rp_id p) = false ->
  let '(c', cmds) := recordInto e g p c in
  cmds = [] /\ rc_images c' = rc_images c /\ rc_buffers c' = rc_buffers c /\ rc_next c' = rc_next c /\
  rc_implicit c' = rc_implicit c ++ map (fun va => (rp_id p, fst va, snd va)) (rp_implicit p).
Proof.
  intros e g p c H. unfold recordInto. rewrite H. unfold register_all.
  assert (G : forall l c0, let c' := fold_left (fun c va => registerImplicit c (rp_id p) (fst va) (snd va)) l c0 in
     rc_images c' = rc_images c0 /\ rc_buffers c' = rc_buffers c0 /\ rc_next c' = rc_next c0 /\
     rc_implicit c' = rc_implicit c0 ++ map (fun va => (rp_id p, fst va, snd va)) l).
  { induction l as [|x l IH]; intro c0; cbv zeta.
    - cbn. rewrite app_nil_r. auto.
    - cbn [fold_left]. destruct (IH (registerImplicit c0 (rp_id p) (fst x) (snd x))) as (-> & -> & -> & ->).
      repeat split. cbn. rewrite <- app_assoc. reflexivity. }
  destruct (G (rp_implicit p) c) as (A & B & C & D). auto.
Qed.
Print Assumptions C35_disabled_pass_records_nothing.

Lemma seq_split x f c l : x >>> f = (c, l) -> exists c1 l1 l2, x = (c1, l1) /\ f c1 = (c, l2) /\ l = l1 ++ l2.
Proof. destruct x as [c1 l1]. unfold seq2. destruct (f c1) as [c2 l2] eqn:E. intro H; injection H as <- <-. exists c1, l1, l2. auto. Qed.

(* An enabled pass: begin, transitions, pre pass actions, body, post pass actions, end; the body sees
   every attachment of the pass that needs a transition in its layout. *)
Theorem C35_enabled_pass_structure : forall e g p c, e_enabled e (rp_id p) = true ->
  exists transitions pre body post c0 c1,
    snd (recordInto e g p c) = [CBeginBlock (rp_id p); CTimerBegin (rp_id p)] ++ transitions ++ pre ++ body ++ post ++ [CTimerEnd (rp_id p); CEndBlock] /\
    (c0, transitions) = (run_all (record_image e g p) (rp_images p) c >>> run_all (record_buffer p) (rp_buffers p)) /\
    (c1, pre) = run_all (fun f c => f c (rp_index p)) (rp_pre p) c0 /\
    body = snd (rp_record p c1 (rp_index p)) /\
    post = snd (run_all (fun f c => f c (rp_index p)) (rp_post p) (fst (rp_record p c1 (rp_index p)))).
Proof.
  intros e g p c H. unfold recordInto. rewrite H.
  set (body := (c, [CBeginBlock (rp_id p); CTimerBegin (rp_id p)]) >>> _ >>> _ >>> _ >>> _ >>> _ >>> _).
  destruct body as [cf l] eqn:E. subst body. cbn [snd].
  apply seq_split in E. destruct E as (c6 & l6 & e6 & E & E6 & ->). injection E6 as <- <-.
  apply seq_split in E. destruct E as (c5 & l5 & e5 & E & E5 & ->).
  apply seq_split in E. destruct E as (c4 & l4 & e4 & E & E4 & ->).
  apply seq_split in E. destruct E as (c3 & l3 & e3 & E & E3 & ->).
  apply seq_split in E. destruct E as (c2 & l2 & e2 & E & E2 & ->).
  apply seq_split in E. destruct E as (c1 & l1 & e1 & E & E1 & ->). injection E as <- <-.
  exists (e1 ++ e2), e3, e4, e5, c3, c4. rewrite E4, E3. cbn [fst snd]. rewrite E5. rewrite E1. cbn [seq2]. rewrite E2.
  repeat split. rewrite <- !app_assoc. reflexivity.
Qed.
Print Assumptions C35_enabled_pass_structure.

Theorem C35_attachments_ready_before_body_partial : forall e g p c, e_enabled e (rp_id p) = true ->
  rc_implicit c = [] -> (forall a, In a (rp_images p) -> view_ok (attach_view a (rp_index p))) ->
  pairwise (fun a b => separate_views (attach_view a (rp_index p)) (attach_view b (rp_index p))) (rp_images p) ->
  let c' := fst (run_all (record_image e g p) (rp_images p) c) in
  forall a, In a (rp_images p) -> has_transition a = true -> a_getImageLayout a (e_separate e) <> L_UNDEFINED ->
    known_layout c' (attach_view a (rp_index p)) = a_getImageLayout a (e_separate e).
Proof. intros e g p c _ Hi Hv Hp. apply (proj2 (proj2 (record_images_ready e g p (rp_images p) c Hi Hv Hp))). Qed.
Print Assumptions C35_attachments_ready_before_body_partial.
Example C35_applies :
  let a := declare_image addSampledView 1 [vw 1 1 (rng 0 1 0 1)] 0 0 0 0 in
  let b := declare_image addTransferOutputView 1 [vw 2 1 (rng 0 1 1 1)] 0 0 0 0 in
  pairwise (fun a b => separate_views (attach_view a 0) (attach_view b 0)) [a; b] /\ has_transition a = true /\ has_transition b = true.
Proof.
  cbv zeta. split; [|split; reflexivity].
  apply pw_cons; [|apply pw_cons; [intros y []|apply pw_nil]].
  intros y [<-|[]]. split; right; intros la mi; unfold in_range; cbn; lia.
Qed.
(* With overlapping attachments only the last transition holds. *)
Theorem C35_overlapping_attachments_refuted : exists e g p c a,
  rp_images p = [a; declare_image addTransferOutputView 1 [vw 2 1 (rng 0 1 0 1)] 0 0 0 0] /\ has_transition a = true /\ rc_implicit c = [] /\
  known_layout (fst (run_all (record_image e g p) (rp_images p) c)) (attach_view a 0) <> a_getImageLayout a (e_separate e).
Proof.
  set (a := declare_image addSampledView 1 [vw 1 1 (rng 0 1 0 1)] 0 0 0 0).
  exists all_on, empty_graph, (marker_pass 1 [a; declare_image addTransferOutputView 1 [vw 2 1 (rng 0 1 0 1)] 0 0 0 0] [] false), new_rctx, a.
  repeat split. vm_compute. discriminate.
Qed.
Print Assumptions C35_overlapping_attachments_refuted.

Theorem C35_blocks_balanced : forall e g p c,
  (forall t, balanced_fun (e_action e t)) -> balanced_fun (rp_record p) ->
  (forall f, In f (rp_pre p) -> balanced_fun f) -> (forall f, In f (rp_post p) -> balanced_fun f) ->
  balanced (snd (recordInto e g p c)).
Proof.
  intros e g p c He Hr Hpre Hpost. destruct (e_enabled e (rp_id p)) eqn:E.
  - destruct (C35_enabled_pass_structure e g p c E) as (tr & pre & body & post & c0 & c1 & -> & Htr & Hpr & -> & ->).
    assert (B1 : balanced tr).
    { replace tr with (snd (run_all (record_image e g p) (rp_images p) c >>> run_all (record_buffer p) (rp_buffers p))) by (rewrite <- Htr; reflexivity).
      apply balanced_seq; [apply balanced_run_all; intros; apply balanced_record_image; exact He | intro; apply balanced_run_all; intros; apply balanced_record_buffer]. }
    assert (B2 : balanced pre).
    { replace pre with (snd (run_all (fun f c => f c (rp_index p)) (rp_pre p) c0)) by (rewrite <- Hpr; reflexivity).
      apply balanced_run_all. intros f Hf c2. apply (Hpre f Hf). }
    assert (B4 : balanced (snd (run_all (fun f c => f c (rp_index p)) (rp_post p) (fst (rp_record p c1 (rp_index p)))))).
    { apply balanced_run_all. intros f Hf c2. apply (Hpost f Hf). }
    intro d. cbn [app nest]. rewrite !nest_app, B1, !nest_app, B2, !nest_app, (Hr c1 (rp_index p)), !nest_app, B4. reflexivity.
  - pose proof (C35_disabled_pass_records_nothing e g p c E) as D. destruct (recordInto e g p c) as [c' l]. destruct D as [-> _]. apply balanced_nil.
Qed.
Print Assumptions C35_blocks_balanced.

(** C36. *)
(* [first_known]: the first of three states whose layout is known. *)
Definition first_known (a b c : lstate) : lstate :=
  if N.eqb (ls_layout a) L_UNDEFINED then (if N.eqb (ls_layout b) L_UNDEFINED then c else b) else a.
Theorem C36_lookup_order : forall g c im vt r,
  snd (getCurrentLayoutState g c im vt r) = first_known (rc_getLayoutState c im vt r) (getLayoutState (g_inputs g) im vt r) (rc_getLayoutState (g_final g) im vt r).
Proof.
  intros. unfold getCurrentLayoutState, first_known.
  destruct (N.eqb _ _); cbn [negb]; [|reflexivity]. destruct (N.eqb _ _); cbn [negb]; [|reflexivity].
  destruct (N.eqb _ _); reflexivity.
Qed.
Print Assumptions C36_lookup_order.
(* Once found, it is what the recording knows, for this view and every part of it; nothing else changes;
   asking again gives the same answer and changes nothing. *)
Theorem C36_lookup_stable : forall g c im vt r, vt <> VT_3D -> valid_range r ->
  let '(c', s) := getCurrentLayoutState g c im vt r in
  (ls_layout s <> L_UNDEFINED -> rc_getLayoutState c' im vt r = s) /\
  (forall i layer mip, i <> i_id im \/ ~ in_range r layer mip -> subresource_state c' i layer mip = subresource_state c i layer mip) /\
  rc_buffers c' = rc_buffers c /\ rc_implicit c' = rc_implicit c /\
  getCurrentLayoutState g c' im vt r = (c', s).
Proof.
  intros g c im vt r Ht Hr.
  assert (Set_ : forall s i layer mip, i <> i_id im \/ ~ in_range r layer mip -> subresource_state (rc_setLayoutState c im vt r s) i layer mip = subresource_state c i layer mip).
  { intros s i layer mip Hi. rewrite set_subresource by assumption.
    destruct (N.eqb_spec (i_id im) i) as [E|E]; [|reflexivity]. destruct (in_rangeb r layer mip) eqn:F; [|reflexivity].
    apply in_rangeb_spec in F. destruct Hi as [Hi|Hi]; [congruence|contradiction]. }
  assert (G : forall s, rc_getLayoutState (rc_setLayoutState c im vt r s) im vt r = s).
  { intro s. unfold rc_getLayoutState, rc_setLayoutState. cbn. apply set_get_not3d; auto. intros ? ? H; exact H. }
  unfold getCurrentLayoutState.
  destruct (N.eqb_spec (ls_layout (rc_getLayoutState c im vt r)) L_UNDEFINED) as [E0|E0]; cbn [negb].
  2:{ destruct (N.eqb_spec (ls_layout (rc_getLayoutState c im vt r)) L_UNDEFINED) as [|_]; [contradiction|]. cbn [negb]. auto. }
  destruct (N.eqb_spec (ls_layout (getLayoutState (g_inputs g) im vt r)) L_UNDEFINED) as [E1|E1]; cbn [negb].
  2:{ rewrite G. destruct (N.eqb_spec (ls_layout (getLayoutState (g_inputs g) im vt r)) L_UNDEFINED) as [|_]; [contradiction|]. cbn [negb]. auto 6. }
  destruct (N.eqb_spec (ls_layout (rc_getLayoutState (g_final g) im vt r)) L_UNDEFINED) as [E2|E2]; cbn [negb].
  2:{ rewrite G. destruct (N.eqb_spec (ls_layout (rc_getLayoutState (g_final g) im vt r)) L_UNDEFINED) as [|_]; [contradiction|]. cbn [negb]. auto 6. }
  split; [contradiction|]. split; [reflexivity|]. split; [reflexivity|]. split; [reflexivity|].
  rewrite E0. reflexivity.
Qed.
Print Assumptions C36_lookup_stable.
Example C36_applies : first_known (makeLayoutState L_UNDEFINED) (makeLayoutState L_GENERAL) (makeLayoutState L_TRANSFER_SRC) = makeLayoutState L_GENERAL.
Proof. reflexivity. Qed.

(** C38. *)
Definition fill_range (l : list cmd) : option (N * N) :=
  match filter (fun c => match c with CFill _ _ _ => true | _ => false end) l with [CFill _ o s] => Some (o, s) | _ => None end.
Definition clrB (pass buf off size : N) := declare_buffer addClearableOutputStorageBuffer pass [buf] 0 0 off size no_pstate 0.

Lemma aligned4 size : size + 4 < 2 ^ 64 -> getAlignedSize size 4 mod 4 = 0 /\ size <= getAlignedSize size 4 < size + 4.
Proof.
  intro H. unfold getAlignedSize, u64_add, u64. pose proof (N.mod_upper_bound size 4 ltac:(lia)) as B.
  pose proof (N.div_mod' size 4) as D. destruct (N.eqb_spec (size mod 4) 0) as [E|E]; [lia|].
  rewrite (N.mod_small (size + (4 - size mod 4)) (2 ^ 64)) by lia. split; [|lia].
  replace (size + (4 - size mod 4)) with ((size / 4 + 1) * 4) by lia. apply N.mod_mul. lia.
Qed.

(* The fill of a clearable buffer attachment whose offset is a multiple of 4: same offset, and the size
   rounded up to a multiple of 4 (VK_WHOLE_SIZE kept). *)
Theorem C38_fill_covers_range_partial : forall p c b off size,
  off mod 4 = 0 -> size = WHOLE_SIZE \/ size + 4 < 2 ^ 64 ->
  exists size', fill_range (snd (record_buffer p (clrB (rp_id p) b off size) c)) = Some (off, size') /\
    (size = WHOLE_SIZE -> size' = WHOLE_SIZE) /\
    (size <> WHOLE_SIZE -> size' mod 4 = 0 /\ size <= size' < size + 4).
Proof.
  intros p c b off size Ho Hs.
  assert (E : fill_range (snd (record_buffer p (clrB (rp_id p) b off size) c)) =
     Some (if N.eqb off 0 then 0 else getAlignedSize off 4, if N.eqb size WHOLE_SIZE then WHOLE_SIZE else getAlignedSize size 4)).
  { unfold record_buffer. change (andb _ _) with true. cbv iota. change (isClearableBuffer _) with true. cbv iota.
    change (attach_buffer (clrB (rp_id p) b off size) (rp_index p)) with b.
    change (ba_offset (clrB (rp_id p) b off size)) with off. change (ba_size (clrB (rp_id p) b off size)) with size.
    set (cur := getAccessState c b). set (t := {| ps_access := A_TRANSFER_WRITE; ps_stage := S_TRANSFER |}).
    set (w := {| ps_access := a_getAccessMask _; ps_stage := _ |}).
    destruct (buffer_cases c b off size (ps_access cur) (ps_stage cur) t false) as [[_ ->]|[_ ->]]; cbn [seq2 emit];
    match goal with |- context [bufferBarrier ?c' b off size ?x ?y w false] =>
      destruct (buffer_cases c' b off size x y w false) as [[_ ->]|[_ ->]] end; reflexivity. }
  rewrite E. clear E.
  assert (O : (if N.eqb off 0 then 0 else getAlignedSize off 4) = off).
  { destruct (N.eqb_spec off 0) as [->|]; [reflexivity|]. unfold getAlignedSize. rewrite Ho. reflexivity. }
  rewrite O. eexists. split; [reflexivity|]. split.
  - intros ->. rewrite N.eqb_refl. reflexivity.
  - intro Hn. destruct (N.eqb_spec size WHOLE_SIZE); [contradiction|]. destruct Hs as [?|Hs]; [contradiction|]. apply aligned4. exact Hs.
Qed.
Print Assumptions C38_fill_covers_range_partial.
Example C38_applies : fill_range (snd (record_buffer (marker_pass 1 [] [] true) (clrB 1 9 16 6) new_rctx)) = Some (16, 8).
Proof. vm_compute. reflexivity. Qed.

(* With an offset that is not a multiple of 4, bytes of the range are not cleared and bytes outside are. *)
Theorem C38_unaligned_offset_refuted : exists p b off size off' size',
  fill_range (snd (record_buffer p (clrB (rp_id p) b off size) new_rctx)) = Some (off', size') /\
  (exists x, off <= x < off + size /\ ~ (off' <= x < off' + size')) /\
  (exists x, ~ (off <= x < off + size) /\ off' <= x < off' + size' /\ off + size <= x).
Proof.
  exists (marker_pass 1 [] [] true), 9, 2, 4, 4, 4. split; [vm_compute; reflexivity|]. split; [exists 2|exists 7]; lia.
Qed.
Print Assumptions C38_unaligned_offset_refuted.
