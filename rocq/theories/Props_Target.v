(* C44, C45, C70-C72: Vulkan render passes and framebuffers. *)
From Verif Require Import Spec_Target Proof_Layout Proof_Attach Proof_Record Proof_Device Proof_Device2 Proof_Device3 Proof_Device6 Proof_Target Proof_Target2 Proof_Target3 Props_Record.
From Coq Require Import PeanoNat Permutation.
Local Open Scope N_scope.

(** C44: the render pass made for a pass. *)
Theorem C44_render_pass_made : forall e g p index t c t' c',
  tg_initialise e g p index t c = (t', c', true) ->
  exists cleanup h info, tg_log t' = tg_log t ++ cleanup ++ [TRenderPass h info] /\
    Forall2 (describes index) (targets p) (ri_descs info) /\
    Forall2 (fun a d => ad_final d = ls_layout (getNextLayoutState e g c p (resolveView (attach_view a index) index))) (targets p) (ri_descs info) /\
    ri_colours info = map (reference (e_separate e)) (filter (fun x => negb (depth_target (snd x))) (positions 0 (targets p))) /\
    (forall x, filter (fun x => depth_target (snd x)) (positions 0 (targets p)) = [x] -> ri_depth info = Some (reference (e_separate e) x)) /\
    (filter depth_target (targets p) = [] -> ri_depth info = None) /\
    tg_blend t' = map ia_misc (filter (fun a => negb (depth_target a)) (targets p)).
Proof.
  intros e g p index t c t' c' E. unfold tg_initialise in E. destruct (andb _ _); [discriminate|]. injection E as <- <-. cbn [tg_log tg_blend].
  do 3 eexists. split; [reflexivity|]. cbn [ri_descs ri_colours ri_depth]. destruct (filled_all e g p index c) as [Nx Ds En Cl Bl Co De]. fold (targets p) in *.
  split; [exact (Forall2_weak _ _ _ _ (fun a d H => proj1 H) Ds)|]. split; [exact (Forall2_weak _ _ _ _ (fun a d H => proj2 H) Ds)|].
  split; [exact Co|]. split; [|split; [|exact Bl]].
  - intros x Hx. rewrite De, Hx. cbn [map last].
    assert (D : depth_target (snd x) = true).
    { assert (I : In x [x]) by (left; reflexivity). rewrite <- Hx in I. apply filter_In in I. apply I. }
    unfold reference at 1. cbn [snd]. pose proof (depth_layout (snd x) (e_separate e) D) as H. apply N.eqb_neq in H. rewrite H. reflexivity.
  - intro H. rewrite De. replace (filter (fun x => depth_target (snd x)) (positions 0 (targets p))) with (@nil (N * attach)); [reflexivity|].
    symmetry. clear - H. revert H. generalize 0. induction (targets p) as [|a l IH]; intros n H; [reflexivity|]. cbn [positions filter snd] in *. destruct (depth_target a); [discriminate|]. apply IH, H.
Qed.
Print Assumptions C44_render_pass_made.
(* The initial layouts, when no two attachments designate the same part of an image. *)
Theorem C44_initial_layouts_partial : forall e g F p t c t' c',
  regions F -> proper_targets e F p -> tg_initialise e g p (rp_index p) t c = (t', c', true) ->
  exists cleanup h info, tg_log t' = tg_log t ++ cleanup ++ [TRenderPass h info] /\
    Forall2 (fun a d => ad_initial d = if isInput a then said g c (attach_view a (rp_index p)) else L_UNDEFINED) (targets p) (ri_descs info).
Proof.
  intros e g F p t c t' c' HF Hp E. unfold tg_initialise in E. destruct (andb _ _); [discriminate|]. injection E as <- <-. cbn [tg_log].
  do 3 eexists. split; [reflexivity|]. cbn [ri_descs]. destruct (filled_all e g p (rp_index p) c) as [_ _ En _ _ _ _].
  destruct (proper_target_pass e g F HF p Hp) as (TF & TS & TN).
  pose proof (built_all g F HF e p (rp_index p) c (rp_images p) [] {| rb_ctx := c; rb_descs := []; rb_entries := []; rb_clear := []; rb_blend := []; rb_colours := []; rb_depth := (0, 0) |}) as B.
  cbn [app] in B. fold (build_targets e g p (rp_index p) c) in B.
  assert (B' : built g F e (rp_index p) c (rp_images p) (build_targets e g p (rp_index p) c)).
  { apply B; [constructor; [constructor|reflexivity|reflexivity]| |intros x a []|exact TS]. intros a Ha T. split; [apply TF; assumption|apply TN; assumption]. }
  destruct B' as [Be _ _]. fold (targets p) in Be. revert Be En. generalize (rb_descs (build_targets e g p (rp_index p) c)), (rb_entries (build_targets e g p (rp_index p) c)), (targets p).
  intros ds es l Be. revert ds. induction Be as [|a x l es (_ & _ & D) Be IH]; intros ds En; inversion En as [|d ? ds' ? [D1 _] En']; subst; constructor; [congruence|apply IH; exact En'].
Qed.
Print Assumptions C44_initial_layouts_partial.
(* Which attachments are targets, and in which order: the j-th colour output is the j-th declared colour attachment. *)
Theorem C44_targets_declared : forall m pass views binding wanted flag misc,
  isTarget (declare_image m pass views binding wanted flag misc) = target_method m /\
  depth_target (declare_image m pass views binding wanted flag misc) = declared_first m.
Proof.
  intros m pass views binding wanted flag misc.
  assert (I : isImage (declare_image addTransferInOutView pass views binding wanted flag misc) = true) by apply (inout_flags flag).
  destruct m; split; try reflexivity; unfold isTarget, depth_target, isColourAttach, isSampledView, isTransitionView, isStorageView, isTransferView, isDepthAttach, isStencilAttach; rewrite I; reflexivity.
Qed.
Print Assumptions C44_targets_declared.
Definition declare_all (l : list (image_method * attach)) : list attach := fold_left (fun images x => declare_into (fst x) (snd x) images) l [].
Lemma declared_targets l : (forall m a, In (m, a) l -> exists pass views binding wanted flag misc, a = declare_image m pass views binding wanted flag misc) -> forall images,
  filter isTarget (fold_left (fun images x => declare_into (fst x) (snd x) images) l images) =
  rev (map snd (filter (fun x => declared_first (fst x)) l)) ++ filter isTarget images ++ map snd (filter (fun x => andb (target_method (fst x)) (negb (declared_first (fst x)))) l).
Proof.
  induction l as [|[m a] l IH]; intros Hd images; cbn [fold_left filter map rev app fst snd]; [rewrite app_nil_r; reflexivity|].
  rewrite IH by (intros m' a' H; apply Hd; right; exact H). destruct (Hd m a (or_introl eq_refl)) as (pass & views & b & w & fl & mi & Ea).
  destruct (C44_targets_declared m pass views b w fl mi) as [T D]. rewrite <- Ea in T, D. unfold declare_into.
  assert (DT : declared_first m = true -> target_method m = true) by (destruct m; cbn; congruence).
  destruct (declared_first m) eqn:Df.
  - cbn [map rev filter snd]. rewrite T, (DT eq_refl). cbn [andb negb app]. rewrite <- app_assoc. reflexivity.
  - rewrite filter_app. cbn [filter]. rewrite T. destruct (target_method m); cbn [andb negb map snd]; rewrite <- ?app_assoc; reflexivity.
Qed.
Lemma map_filter_positions (f : attach -> bool) l : forall n, map snd (filter (fun x => f (snd x)) (positions n l)) = filter f l.
Proof. induction l as [|a l IH]; intro n; [reflexivity|]. cbn [positions filter snd map]. destruct (f a); cbn [map snd]; rewrite IH; reflexivity. Qed.
Theorem C44_colour_outputs_in_order : forall e g p index t c t' c' ds,
  (forall m a, In (m, a) ds -> exists pass views binding wanted flag misc, a = declare_image m pass views binding wanted flag misc) ->
  rp_images p = declare_all ds -> tg_initialise e g p index t c = (t', c', true) ->
  exists cleanup h info, tg_log t' = tg_log t ++ cleanup ++ [TRenderPass h info] /\
    map (fun r => nth_error (targets p) (N.to_nat (fst r))) (ri_colours info) =
    map Some (map snd (filter (fun x => andb (target_method (fst x)) (negb (declared_first (fst x)))) ds)).
Proof.
  intros e g p index t c t' c' ds Hd Hi E. destruct (C44_render_pass_made _ _ _ _ _ _ _ _ E) as (cl & h & info & EL & _ & _ & Co & _).
  exists cl, h, info. split; [exact EL|]. rewrite Co, map_map.
  assert (P : map (fun x => nth_error (targets p) (N.to_nat (fst (reference (e_separate e) x)))) (filter (fun x => negb (depth_target (snd x))) (positions 0 (targets p))) =
    map (fun x => Some (snd x)) (filter (fun x => negb (depth_target (snd x))) (positions 0 (targets p)))).
  { apply map_ext_in. intros [i a] H. apply filter_In in H. destruct H as [H _]. apply positions_nth in H. destruct H as (k & Hk & ->). cbn [reference fst snd]. rewrite N.add_0_l, Nnat.Nat2N.id. exact Hk. }
  rewrite P. transitivity (map (@Some attach) (map snd (filter (fun x => negb (depth_target (snd x))) (positions 0 (targets p))))); [rewrite map_map; reflexivity|]. f_equal.
  rewrite (map_filter_positions (fun a => negb (depth_target a))). unfold targets. rewrite Hi. unfold declare_all. rewrite declared_targets by exact Hd. cbn [filter app].
  rewrite filter_app.
  assert (A1 : filter (fun a => negb (depth_target a)) (rev (map snd (filter (fun x => declared_first (fst x)) ds))) = []).
  { assert (Q : forall a, In a (rev (map snd (filter (fun x => declared_first (fst x)) ds))) -> depth_target a = true).
    { intros a H. apply in_rev in H. apply in_map_iff in H. destruct H as ([m b] & <- & H). apply filter_In in H. destruct H as [H D]. cbn [fst snd] in *.
      destruct (Hd m b H) as (pass & views & bi & w & fl & mi & ->). destruct (C44_targets_declared m pass views bi w fl mi) as [_ ->]. exact D. }
    revert Q. generalize (rev (map snd (filter (fun x => declared_first (fst x)) ds))). induction l as [|a l IH]; intro Q; [reflexivity|]. cbn [filter].
    rewrite (Q a (or_introl eq_refl)). apply IH. intros b Hb. apply Q. right. exact Hb. }
  rewrite A1. cbn [app]. clear A1 P Hi. induction ds as [|[m a] l IH]; [reflexivity|]. cbn [filter fst map].
  destruct (Hd m a (or_introl eq_refl)) as (pass & views & bi & w & fl & mi & Ea). destruct (C44_targets_declared m pass views bi w fl mi) as [_ D]. rewrite <- Ea in D.
  specialize (IH (fun m' a' H => Hd m' a' (or_intror H))).
  destruct (target_method m); cbn [andb]; [|exact IH]. destruct (declared_first m); cbn [negb]; [exact IH|]. cbn [map filter snd]. rewrite D. cbn [negb]. f_equal. exact IH.
Qed.
Print Assumptions C44_colour_outputs_in_order.
Definition tv (id i format : N) : view := mkView id {| i_id := i; i_width := 16; i_height := 16; i_depth := 1; i_levels := 5; i_layers := 6; i_format := format |} 0 VT_2D format (rng 0 1 0 1) [].
Definition three_targets : list (image_method * attach) :=
  [(addOutputColourView, declare_image addOutputColourView 1 [tv 1 1 37] 0 0 0 7); (addSampledView, declare_image addSampledView 1 [tv 2 2 37] 0 0 0 0);
   (addInOutDepthView, declare_image addInOutDepthView 1 [tv 3 3 F_D32] 0 0 0 8); (addInOutColourView, declare_image addInOutColourView 1 [tv 4 4 44] 0 0 0 9)].
Definition target_pass_of (l : list attach) : rpass := marker_pass 1 l [] false.
Example C44_applies :
  let p := target_pass_of (declare_all three_targets) in
  let '(t', _, made) := tg_initialise all_on empty_graph p 0 (new_target (16, 16) 1) new_rctx in
  made = true /\ map ia_misc (targets p) = [8; 7; 9] /\
  exists descs, tg_log t' = [TRenderPass 1 {| ri_descs := descs; ri_colours := [(1, L_COLOR_ATTACHMENT); (2, L_COLOR_ATTACHMENT)]; ri_depth := Some (0, L_DEPTH_STENCIL_ATTACHMENT);
     ri_deps := subpass_deps (rc_prevState new_rctx) (rc_nextState new_rctx) |}] /\ length descs = 3%nat.
Proof. vm_compute. split; [reflexivity|]. split; [reflexivity|]. eexists. split; reflexivity. Qed.

(** C44 is false for a depth attachment and a stencil attachment together: only one of them is referenced by the subpass. *)
Theorem C44_two_depth_targets_refuted : exists p h info t',
  fst (fst (tg_initialise all_on empty_graph p 0 (new_target (16, 16) 1) new_rctx)) = t' /\ tg_log t' = [TRenderPass h info] /\
  exists k a, nth_error (targets p) k = Some a /\ (forall l, ~ In (N.of_nat k, l) (ri_colours info)) /\ (forall l, ri_depth info <> Some (N.of_nat k, l)).
Proof.
  exists (target_pass_of (declare_all [(addInOutDepthView, declare_image addInOutDepthView 1 [tv 3 3 F_D32] 0 0 0 8); (addInOutStencilView, declare_image addInOutStencilView 1 [tv 4 4 F_S8] 0 0 0 9)])).
  do 3 eexists. split; [reflexivity|]. split; [vm_compute; reflexivity|]. exists 0%nat. eexists. split; [vm_compute; reflexivity|]. split; [intros l []|]. intros l H. discriminate H.
Qed.
Print Assumptions C44_two_depth_targets_refuted.
(** C44 is false for the stencil aspect: with undefined contents its load operation is kept. *)
Theorem C44_undefined_stencil_loaded_refuted : exists p t' h info d,
  fst (fst (tg_initialise all_on empty_graph p 0 (new_target (16, 16) 1) new_rctx)) = t' /\ tg_log t' = [TRenderPass h info] /\
  In d (ri_descs info) /\ ad_initial d = L_UNDEFINED /\ ad_sload d = LO_LOAD.
Proof.
  exists (target_pass_of [declare_image addInOutDepthStencilView 1 [tv 3 3 F_D24_S8] 0 0 0 8]). do 4 eexists. split; [reflexivity|]. split; [vm_compute; reflexivity|].
  split; [left; reflexivity|]. split; reflexivity.
Qed.
Print Assumptions C44_undefined_stencil_loaded_refuted.

(** C45: a reused render pass is one made earlier for the same previous and next pipeline states, and expects the layouts
    the recording knows. *)
Theorem C45_reused_when_valid_partial : forall size n images uses e g p c t' c',
  (forall u, In u uses -> rp_images (us_pass u) = images /\ (rp_index (us_pass u) < n)%nat) -> rp_images p = images -> (rp_index p < n)%nat ->
  let t := used size n uses in tg_initialise e g p (rp_index p) t c = (t', c', false) ->
  t' = t /\ c' = c /\
  exists info, In (TRenderPass (rd_renderPass (pass_data t (rp_index p))) info) (tg_log t) /\ rd_renderPass (pass_data t (rp_index p)) <> 0 /\
    ri_deps info = subpass_deps (rc_prevState c) (rc_nextState c) /\
    Forall2 (describes (rp_index p)) (targets p) (ri_descs info) /\
    Forall2 (fun a d => let k := known_layout c (resolveView (attach_view a (rp_index p)) (rp_index p)) in k = L_UNDEFINED \/ k = ad_initial d) (targets p) (ri_descs info).
Proof.
  intros size n images uses e g p c t' c' Hu Hp Hi t E. destruct (kept_used images size n uses Hu) as ([KD _ _ _ _] & _ & Len). fold t in KD, Len.
  specialize (KD (rp_index p)). rewrite Len in KD. specialize (KD Hi). unfold tg_initialise in E. set (d := pass_data t (rp_index p)) in *.
  destruct (andb _ _) eqn:Chk; [|discriminate]. injection E as <- <-. split; [reflexivity|]. split; [reflexivity|].
  apply andb_prop in Chk. destruct Chk as [Chk Cp]. apply andb_prop in Chk. destruct Chk as [Cr Ck]. apply negb_true_iff, N.eqb_neq in Cr.
  apply andb_prop in Cp. destruct Cp as [C1 C2].
  assert (PE : forall a b, pstate_eqb a b = true -> a = b).
  { intros [a1 a2] [b1 b2] H. unfold pstate_eqb in H. cbn in H. apply andb_prop in H. destruct H as [H1 H2]. apply N.eqb_eq in H1, H2. congruence. }
  apply PE in C1, C2.
  destruct KD as [Z|(info & A1 & A2 & A3 & A4 & A5 & _)]; [contradiction|]. exists info. split; [exact A1|]. split; [exact Cr|]. split; [rewrite A2, C1, C2; reflexivity|].
  unfold targets. rewrite Hp. split; [exact A3|].
  assert (Ck' : forall x, In x (rd_entries d) -> known_layout c (resolveView (en_view x) (rp_index p)) = L_UNDEFINED \/ known_layout c (resolveView (en_view x) (rp_index p)) = ls_layout (en_input x)).
  { intros x Hx. unfold checkAttaches in Ck. rewrite forallb_forall in Ck. specialize (Ck x Hx). cbn zeta in Ck. apply negb_true_iff in Ck. unfold get_view in Ck.
    fold (known_layout c (resolveView (en_view x) (rp_index p))) in Ck. apply andb_false_iff in Ck. destruct Ck as [Ck|Ck].
    - right. unfold lstate_differs in Ck. apply orb_false_elim in Ck. destruct Ck as [Ck _]. apply negb_false_iff, N.eqb_eq in Ck. exact Ck.
    - left. apply negb_false_iff, N.eqb_eq in Ck. exact Ck. }
  clear - A4 A5 Ck'. revert A4 Ck'. generalize (ri_descs info). induction A5 as [|a x l es Hv A5 IH]; intros ds A4 Ck'; inversion A4 as [|dd ? ds' ? [D1 _] A4']; subst; constructor.
  - cbn zeta. rewrite <- Hv, D1. apply Ck'. left. reflexivity.
  - apply IH; [exact A4'|]. intros y Hy. apply Ck'. right. exact Hy.
Qed.
Print Assumptions C45_reused_when_valid_partial.
Definition colour_rp (m : image_method) : rpass :=
  {| rp_id := 1; rp_images := [declare_image m 1 [tv 1 1 37] 0 0 0 7]; rp_buffers := []; rp_index := 0; rp_compute := false;
     rp_state := colour_output_state; rp_record := fun c _ => (c, []); rp_pre := []; rp_post := []; rp_implicit := [] |}.
Definition no_body : rctx -> nat -> rctx * list cmd := fun c _ => (c, []).
Definition first_use (m : image_method) (c : rctx) : use := {| us_env := all_on; us_graph := empty_graph; us_pass := colour_rp m; us_body := no_body; us_ctx := c |}.
Example C45_applies :
  let t := used (16, 16) 1 [first_use addInOutColourView new_rctx] in
  snd (tg_initialise all_on empty_graph (colour_rp addInOutColourView) 0 t new_rctx) = false /\
  snd (tg_initialise all_on empty_graph (colour_rp addInOutColourView) 0 t (set_view new_rctx (tv 1 1 37) (makeLayoutState L_TRANSFER_DST))) = true.
Proof. split; vm_compute; reflexivity. Qed.

(** It is reused exactly when one exists, was made for the same previous and next pipeline states, and the state of each of its
    attachments is still the expected one. *)
Theorem C45_reused_exactly : forall e g p index t c,
  snd (tg_initialise e g p index t c) = false <->
  rd_renderPass (pass_data t index) <> 0 /\ rd_prev (pass_data t index) = rc_prevState c /\ rd_next (pass_data t index) = rc_nextState c /\
  (forall x, In x (rd_entries (pass_data t index)) -> still_expected (get_view c (resolveView (en_view x) index)) (en_input x)).
Proof.
  assert (PE : forall a b, pstate_eqb a b = true <-> a = b).
  { intros [a1 a2] [b1 b2]. unfold pstate_eqb. cbn [ps_access ps_stage]. rewrite andb_true_iff, !N.eqb_eq. split; [intros [-> ->]; reflexivity|intro E; injection E; auto]. }
  assert (SE : forall s x, negb (andb (lstate_differs s x) (negb (N.eqb (ls_layout s) L_UNDEFINED))) = true <-> still_expected s x).
  { intros s x. unfold lstate_differs, still_expected. rewrite negb_true_iff, andb_false_iff, orb_false_iff, orb_false_iff, andb_false_iff, !negb_false_iff, !N.eqb_eq. tauto. }
  intros e g p index t c. unfold tg_initialise. destruct (andb _ _) eqn:Chk.
  - cbn [snd]. split; [intros _|reflexivity]. rewrite !andb_true_iff in Chk. destruct Chk as [[C1 C2] [C3 C4]].
    apply negb_true_iff, N.eqb_neq in C1. apply PE in C3, C4. split; [exact C1|]. split; [exact C3|]. split; [exact C4|].
    intros x Hx. unfold checkAttaches in C2. rewrite forallb_forall in C2. apply SE, (C2 x Hx).
  - cbn [snd]. split; [discriminate|]. intros (C1 & C3 & C4 & C2). exfalso. enough (T : true = false) by discriminate. rewrite <- Chk. symmetry.
    rewrite !andb_true_iff. split; [split|split]; [apply negb_true_iff, N.eqb_neq, C1| |apply PE, C3|apply PE, C4].
    unfold checkAttaches. apply forallb_forall. intros x Hx. apply SE, C2, Hx.
Qed.
Print Assumptions C45_reused_exactly.
(* with known layouts: the same render pass, unless the pending accesses have changed *)
Example C45_reused_applies :
  let known s := set_view new_rctx (tv 1 1 37) s in
  let t := used (16, 16) 1 [first_use addInOutColourView (known (makeLayoutState L_TRANSFER_DST))] in
  rd_renderPass (pass_data t 0) <> 0 /\ map en_input (rd_entries (pass_data t 0)) = [makeLayoutState L_TRANSFER_DST] /\
  snd (tg_initialise all_on empty_graph (colour_rp addInOutColourView) 0 t (known (makeLayoutState L_TRANSFER_DST))) = false /\
  snd (tg_initialise all_on empty_graph (colour_rp addInOutColourView) 0 t (known (mk_lstate L_TRANSFER_DST A_TRANSFER_READ S_TRANSFER))) = true /\
  snd (tg_initialise all_on empty_graph (colour_rp addInOutColourView) 0 t (known (mk_lstate L_TRANSFER_DST A_TRANSFER_WRITE S_COMPUTE))) = true.
Proof. vm_compute. repeat split; discriminate. Qed.

(** C45 is false: the layouts the recording does not know are not looked for in the declared inputs nor in the previous frame.
    An attachment declared as input and output, undefined in the first frame, is cleared again in the second frame,
    although its content and its layout are known from the first one. *)
Definition frame_of (t : target) (g : rgraph) (m : image_method) (e : env) (before after : list rpass) : rgraph * list cmd :=
  fst (record_graph e g [] (before ++ render_pass e g (colour_rp m) no_body t :: after)).
Definition second_target (e : env) (g : rgraph) (m : image_method) (t : target) (before after : list rpass) : target :=
  match nth_error (snd (record_graph e g [] (before ++ render_pass e g (colour_rp m) no_body t :: after))) (length before) with
  | Some (_, c, _) => fst (fst (tg_record e g (colour_rp m) 0 no_body t (fst (run_all (record_image e g (colour_rp m)) (rp_images (colour_rp m)) c))))
  | None => t
  end.
Definition begins (l : list cmd) : list (list (N * N)) :=
  flat_map (fun c => match c with CBeginRenderPass infos => [map (fun x : view * N * N * tops => (snd (fst (fst x)), to_load (snd x))) infos] | _ => [] end) l.
Theorem C45_contents_cleared_again_refuted :
  let t1 := new_target (16, 16) 1 in
  let '(g1, cmds1) := frame_of t1 empty_graph addInOutColourView all_on [] [] in
  let t2 := second_target all_on empty_graph addInOutColourView t1 [] [] in
  let '(g2, cmds2) := frame_of t2 g1 addInOutColourView all_on [] [] in
  let '(g3, cmds3) := frame_of t1 g1 addInOutColourView all_on [] [] in
  (* first frame: undefined, hence cleared; second frame: the same render pass; a render pass made in the second frame would load *)
  begins cmds1 = [[(L_UNDEFINED, LO_CLEAR)]] /\ begins cmds2 = [[(L_UNDEFINED, LO_CLEAR)]] /\ begins cmds3 = [[(L_COLOR_ATTACHMENT, LO_LOAD)]].
Proof. vm_compute. auto. Qed.
Print Assumptions C45_contents_cleared_again_refuted.

(** The stale layout can even be wrong: a pass that leaves the attachment in another layout in the first frame is disabled in the second one. *)
Definition transfer_first : rpass :=
  {| rp_id := 2; rp_images := [declare_image addTransferOutputView 2 [tv 1 1 37] 0 0 0 0]; rp_buffers := []; rp_index := 0; rp_compute := false;
     rp_state := bottom_state; rp_record := fun c _ => (c, []); rp_pre := []; rp_post := []; rp_implicit := [] |}.
Definition without_2 : env := {| e_separate := false; e_enabled := fun n => negb (N.eqb n 2); e_action := fun t c _ => (c, [CUser t]) |}.
Theorem C45_stale_initial_layout_refuted :
  let t1 := new_target (16, 16) 1 in
  let '(g1, cmds1) := frame_of t1 empty_graph addInOutColourView all_on [transfer_first] [] in
  let t2 := second_target all_on empty_graph addInOutColourView t1 [transfer_first] [] in
  let '(g2, cmds2) := frame_of t2 g1 addInOutColourView without_2 [transfer_first] [] in
  begins cmds1 = [[(L_TRANSFER_DST, LO_LOAD)]] /\ all_legal (fun _ _ _ => L_UNDEFINED) cmds1 /\ ~ all_legal (after_all (fun _ _ _ => L_UNDEFINED) cmds1) cmds2.
Proof.
  cbn zeta. set (x := frame_of _ _ _ _ _ _). set (y := second_target _ _ _ _ _ _). vm_compute in x, y. subst x y. cbv beta iota.
  set (z := frame_of _ _ _ _ _ _). vm_compute in z. subst z. cbv beta iota. split; [reflexivity|]. split.
  - cbn [all_legal legal]. repeat match goal with |- _ /\ _ => split | |- True => exact I end.
    + left. reflexivity.
    + discriminate.
    + intros v initial final load [H|[]]. injection H as <- <- <- <-. split; [right|discriminate].
      intros layer mip R. unfold in_range in R. cbn in R. assert (layer = 0) as -> by lia. assert (mip = 0) as -> by lia. vm_compute. reflexivity.
  - cbn [all_legal legal]. intros (_ & _ & H & _). destruct (H _ _ _ _ (or_introl eq_refl)) as [[Q|Q] _]; [discriminate Q|]. specialize (Q 0 0).
    assert (R : in_range (rng 0 1 0 1) 0 0) by (unfold in_range; cbn; lia). specialize (Q R). vm_compute in Q. discriminate Q.
Qed.
Print Assumptions C45_stale_initial_layout_refuted.

(** The final layout is not checked either: with the consumer of the attachment disabled in the second frame, the attachment is
    not left in the declared output layout, although a render pass made in that frame would leave it there. *)
Definition sampling_after : rpass :=
  {| rp_id := 2; rp_images := [declare_image addSampledView 2 [tv 1 1 37] 0 0 0 0]; rp_buffers := []; rp_index := 0; rp_compute := false;
     rp_state := colour_output_state; rp_record := fun c _ => (c, []); rp_pre := []; rp_post := []; rp_implicit := [] |}.
Definition output_graph : rgraph :=
  {| g_inputs := []; g_outputs := setLayoutState [] (v_image (tv 1 1 37)) VT_2D (rng 0 1 0 1) (makeLayoutState L_TRANSFER_SRC); g_final := new_rctx |}.
Theorem C45_stale_final_layout_refuted :
  let t1 := new_target (16, 16) 1 in
  let '(g1, cmds1) := frame_of t1 output_graph addOutputColourView all_on [] [sampling_after] in
  let t2 := second_target all_on output_graph addOutputColourView t1 [] [sampling_after] in
  let '(g2, cmds2) := frame_of t2 g1 addOutputColourView without_2 [] [sampling_after] in
  let '(g3, cmds3) := frame_of t1 g1 addOutputColourView without_2 [] [sampling_after] in
  let image := after_all (after_all (fun _ _ _ => L_UNDEFINED) cmds1) in
  image cmds2 1 0 0 = L_SHADER_READ_ONLY /\ image cmds3 1 0 0 = L_TRANSFER_SRC.
Proof. vm_compute. auto. Qed.
Print Assumptions C45_stale_final_layout_refuted.

(** C70: framebuffers. *)
Theorem C70_framebuffer_matches_render_pass : forall size n images uses,
  (forall u, In u uses -> rp_images (us_pass u) = images /\ (rp_index (us_pass u) < n)%nat) ->
  let log := tg_log (used size n uses) in
  (forall h r views w ht layers, In (TFramebuffer h r views w ht layers) log ->
     exists i info, In (TRenderPass r info) log /\ views = map (fun a => attach_view a i) (filter isTarget images) /\
       Forall2 (fun v d => v_format v = ad_format d) views (ri_descs info)) /\
  (forall r f area clears, In (TBegin r f area clears) log ->
     (exists views w ht layers, In (TFramebuffer f r views w ht layers) log /\ area = (w, ht)) /\ clears = map ia_misc (filter isTarget images)).
Proof.
  intros size n images uses Hu log. destruct (kept_used images size n uses Hu) as ([_ KL _ _ _] & _ & _). fold log in KL. split.
  - intros h r views w ht layers H. destruct (KL _ H) as (i & info & A & B & -> & _). exists i, info. split; [exact A|]. split; [reflexivity|].
    clear - B. induction B as [|a d l ds D B IH]; constructor; [symmetry; apply D|exact IH].
  - intros r f area clears H. apply (KL _ H).
Qed.
Print Assumptions C70_framebuffer_matches_render_pass.
Lemma area_same W H l : forall w h, (forall a, In a l -> isTarget a = true -> level_extent (attach_view a 0) = (W, H)) -> w <= W -> h <= H ->
  let r := render_area (w, h) l in r = (w, h) /\ (forall a, In a l -> isTarget a = false) \/ r = (W, H).
Proof.
  induction l as [|a l IH]; intros w h Ha Hw Hh; [left; split; [reflexivity|intros a []]|]. cbn [render_area fold_left]. destruct (isTarget a) eqn:T.
  - cbn zeta. rewrite (Ha a (or_introl eq_refl) T). cbn [fst snd]. rewrite !N.max_r by assumption.
    destruct (IH W H (fun b Hb => Ha b (or_intror Hb)) (N.le_refl _) (N.le_refl _)) as [[E _]|E]; unfold render_area in E; rewrite E; right; reflexivity.
  - destruct (IH w h (fun b Hb => Ha b (or_intror Hb)) Hw Hh) as [[E F]|E]; unfold render_area in E; rewrite E; [left; split; [reflexivity|]|right; reflexivity].
    intros b [<-|Hb]; [exact T|apply F, Hb].
Qed.
Lemma layers_same K l : forall n, (forall a, In a l -> isTarget a = true -> r_layers (v_range (attach_view a 0)) = K) -> n <= K ->
  let r := fold_left (fun n a => if isTarget a then N.max n (r_layers (v_range (attach_view a 0))) else n) l n in r = n /\ (forall a, In a l -> isTarget a = false) \/ r = K.
Proof.
  induction l as [|a l IH]; intros n Ha Hn; [left; split; [reflexivity|intros a []]|]. cbn [fold_left]. destruct (isTarget a) eqn:T.
  - rewrite (Ha a (or_introl eq_refl) T). rewrite N.max_r by exact Hn.
    destruct (IH K (fun b Hb => Ha b (or_intror Hb)) (N.le_refl _)) as [[E _]|E]; rewrite E; right; reflexivity.
  - destruct (IH n (fun b Hb => Ha b (or_intror Hb)) Hn) as [[E F]|E]; rewrite E; [left; split; [reflexivity|]|right; reflexivity].
    intros b [<-|Hb]; [exact T|apply F, Hb].
Qed.
(* Its size, when the first views of the targets all have one extent and one number of layers, and the configured size is not bigger. *)
Theorem C70_framebuffer_size_partial : forall size n images uses W H K,
  (forall u, In u uses -> rp_images (us_pass u) = images /\ (rp_index (us_pass u) < n)%nat) ->
  (forall a, In a images -> isTarget a = true -> level_extent (attach_view a 0) = (W, H) /\ r_layers (v_range (attach_view a 0)) = K) ->
  fst size <= W -> snd size <= H -> 1 <= K -> (exists a, In a images /\ isTarget a = true) ->
  forall h r views w ht layers, In (TFramebuffer h r views w ht layers) (tg_log (used size n uses)) -> w = W /\ ht = H /\ layers = K.
Proof.
  intros size n images uses W H K Hu Ha Hw Hh HK (a & Ia & Ta) h r views w ht layers Hin.
  destruct (kept_used images size n uses Hu) as ([_ KL _ _ _] & _ & _). destruct (KL _ Hin) as (i & info & _ & _ & _ & E1 & E2).
  destruct size as [w0 h0]. cbn [fst snd] in *.
  destruct (area_same W H images w0 h0 (fun a I T => proj1 (Ha a I T)) Hw Hh) as [[_ F]|E]; [rewrite (F a Ia) in Ta; discriminate|].
  cbn zeta in E. rewrite E in E1. injection E1 as -> ->.
  destruct (layers_same K images 1 (fun a I T => proj2 (Ha a I T)) HK) as [[_ F]|E']; [rewrite (F a Ia) in Ta; discriminate|]. cbn zeta in E'. unfold render_layers in E2. rewrite E' in E2. auto.
Qed.
Print Assumptions C70_framebuffer_size_partial.
Example C70_applies :
  let u := first_use addInOutColourView new_rctx in
  exists info, tg_log (used (8, 8) 1 [u; u]) =
    [TRenderPass 1 info; TFramebuffer 2 1 [tv 1 1 37] 16 16 1; TBegin 1 2 (16, 16) [7]; TEnd; TBegin 1 2 (16, 16) [7]; TEnd].
Proof. eexists. vm_compute. reflexivity. Qed.
(** C70 is false of the size in general: the framebuffer is as big as the biggest attachment, so bigger than the others. *)
Theorem C70_bigger_than_attachment_refuted : exists size p c h r views w ht layers v,
  In (TFramebuffer h r views w ht layers) (tg_log (used size 1 [{| us_env := all_on; us_graph := empty_graph; us_pass := p; us_body := no_body; us_ctx := c |}])) /\
  In v views /\ fst (level_extent v) < w.
Proof.
  exists (0, 0), (target_pass_of [declare_image addOutputColourView 1 [tv 1 1 37] 0 0 0 7;
     declare_image addOutputColourView 1 [mkView 2 (v_image (tv 2 2 37)) 0 VT_2D 37 (rng 1 1 0 1) []] 0 0 0 8]), new_rctx. do 7 eexists.
  split; [vm_compute; right; left; reflexivity|]. split; [right; left; reflexivity|]. vm_compute. reflexivity.
Qed.
Print Assumptions C70_bigger_than_attachment_refuted.

(** C71: the objects made for the render passes. *)
Theorem C71_destroyed_exactly_once : forall size n uses,
  (forall u, In u uses -> (rp_index (us_pass u) < n)%nat) ->
  let log := tg_log (tg_destroy (used size n uses)) in
  NoDup (made log) /\ Permutation (destroyed log) (made log) /\ handles_alive log.
Proof.
  intros size n uses Hu log. assert (Len : length (tg_passes (new_target size n)) = n) by (cbn; apply repeat_length).
  destruct (lives_uses uses (new_target size n) (new_lives size n)) as [L _]; [intros u H; rewrite Len; apply Hu, H|].
  destruct (destroy_all _ L) as (A & B & C). auto.
Qed.
Print Assumptions C71_destroyed_exactly_once.
Example C71_applies :
  let u := first_use addInOutColourView new_rctx in
  let v := first_use addInOutColourView (set_view new_rctx (tv 1 1 37) (makeLayoutState L_TRANSFER_DST)) in
  made (tg_log (tg_destroy (used (16, 16) 1 [u; v; u]))) = [1; 2; 3; 4] /\ destroyed (tg_log (tg_destroy (used (16, 16) 1 [u; v; u]))) = [2; 1; 4; 3].
Proof. vm_compute. auto. Qed.

(** C72: the dependencies of a render pass cover the accesses of its colour attachments... *)
Definition covered (m access : N) : Prop := N.land m access = access.
Theorem C72_colour_accesses_covered_partial : forall e g p index t c t' c',
  tg_initialise e g p index t c = (t', c', true) ->
  exists cleanup h info entering leaving, tg_log t' = tg_log t ++ cleanup ++ [TRenderPass h info] /\ ri_deps info = [entering; leaving] /\
    fst entering = rc_prevState c /\ snd leaving = rc_nextState c /\
    forall a, In a (targets p) -> isImage a = true -> depth_target a = false ->
      covered (ps_access (snd entering)) (a_getAccessMask a) /\ covered (ps_stage (snd entering)) (a_getPipelineStageFlags a false) /\
      covered (ps_access (fst leaving)) (a_getAccessMask a) /\ covered (ps_stage (fst leaving)) (a_getPipelineStageFlags a false).
Proof.
  intros e g p index t c t' c' E. unfold tg_initialise in E. destruct (andb _ _); [discriminate|]. injection E as <- <-. cbn [tg_log].
  do 5 eexists. split; [reflexivity|]. cbn [ri_deps]. unfold subpass_deps. split; [reflexivity|]. cbn [fst snd]. split; [reflexivity|]. split; [reflexivity|].
  intros a Ha Im Dt. unfold targets in Ha. apply filter_In in Ha. destruct Ha as [_ T]. unfold isTarget in T. unfold depth_target in Dt.
  apply orb_false_elim in Dt. destruct Dt as [D1 D2]. rewrite D1, D2 in T. cbn [orb] in T. unfold isColourAttach in T. apply negb_true_iff in T.
  apply orb_false_elim in T. destruct T as [T _]. apply orb_false_elim in T. destruct T as [T1 T2]. apply orb_false_elim in T1, T2. destruct T1 as [T1 T3], T2 as [T2 T4].
  unfold isSampledView, isTransitionView, isStorageView, isTransferView, isDepthAttach, isStencilAttach in *. rewrite Im in *. cbn [andb] in *.
  unfold a_getAccessMask, a_getPipelineStageFlags, i_getAccessMask, i_getPipelineStageFlags. rewrite Im, T1, T2, T3, T4, D1, D2. cbn [orb].
  unfold covered, rw, colour_output_state. destruct (isInput a), (isOutput a); repeat split; reflexivity.
Qed.
Print Assumptions C72_colour_accesses_covered_partial.
Example C72_applies : exists cleanup h info entering leaving,
  tg_log (fst (fst (tg_initialise all_on empty_graph (colour_rp addInOutColourView) 0 (new_target (16, 16) 1) new_rctx))) = cleanup ++ [TRenderPass h info] /\ ri_deps info = [entering; leaving] /\
  covered (ps_access (snd entering)) (N.lor A_COLOR_READ A_COLOR_WRITE).
Proof. exists []. do 4 eexists. split; [vm_compute; reflexivity|]. split; [reflexivity|]. reflexivity. Qed.
(** ... and those of no depth or stencil attachment: the claim is false for them, in both directions. *)
Theorem C72_depth_not_covered_refuted : exists p h info,
  tg_log (fst (fst (tg_initialise all_on empty_graph p 0 (new_target (16, 16) 1) new_rctx))) = [TRenderPass h info] /\
  exists a, In a (targets p) /\ depth_target a = true /\ a_getAccessMask a = N.lor A_DS_READ A_DS_WRITE /\ a_getPipelineStageFlags a false = S_LATE_TESTS /\
  forall dep, In dep (ri_deps info) -> N.land (ps_access (snd dep)) A_DS_WRITE = 0 /\ N.land (ps_access (fst dep)) A_DS_WRITE = 0 /\
    N.land (ps_stage (snd dep)) S_LATE_TESTS = 0 /\ N.land (ps_stage (fst dep)) S_LATE_TESTS = 0.
Proof.
  exists (target_pass_of [declare_image addInOutDepthView 1 [tv 3 3 F_D32] 0 0 0 8]). do 2 eexists. split; [vm_compute; reflexivity|].
  eexists. split; [left; reflexivity|]. split; [reflexivity|]. split; [reflexivity|]. split; [reflexivity|]. intros dep [<-|[<-|[]]]; vm_compute; auto.
Qed.
Print Assumptions C72_depth_not_covered_refuted.
