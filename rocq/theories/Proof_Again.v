(* Proofs about the passes recorded again. *)
From Verif Require Import Spec_Again Proof_Layout Proof_Record Proof_Run2 Proof_Run3 Proof_Device Proof_Overlap Proof_Deliver.
From Coq Require Import Lia.
Local Open Scope N_scope.

(* ---- the trace of a recording ---- *)
Lemma loop_trace e g l1 : forall p l2 c,
  let c0 := prepare e g p l2 (reached e g l1 (p :: l2) c) in
  exists tr1 x tr2 after, snd (record_loop e g (l1 ++ p :: l2) c) = tr1 ++ (p, c0, x) :: tr2 /\ map (fun y => fst (fst y)) tr1 = l1 /\ map (fun y => fst (fst y)) tr2 = l2 /\
    snd (fst (record_loop e g (l1 ++ p :: l2) c)) = emitted e g l1 (p :: l2) c ++ snd (recordInto e g p c0) ++ after.
Proof.
  assert (M : forall l c, map (fun y => fst (fst y)) (snd (record_loop e g l c)) = l).
  { induction l as [|q l IH]; intro c; [reflexivity|]. cbn [record_loop]. destruct (recordInto e g q (prepare e g q l c)) as [c2 k]. specialize (IH c2).
    destruct (record_loop e g l c2) as [[c3 k3] tr]. cbn [fst snd map] in *. rewrite IH. reflexivity. }
  induction l1 as [|q l1 IH]; intros p l2 c c0.
  - cbn [app record_loop reached emitted] in *. specialize (M l2 (fst (recordInto e g p c0))). fold c0.
    destruct (recordInto e g p c0) as [c2 k]. cbn [fst snd] in *. destruct (record_loop e g l2 c2) as [[c3 k3] tr]. cbn [fst snd] in *.
    exists [], (recorded_index e p), tr, k3. repeat split; auto.
  - cbn [app record_loop reached emitted] in *. cbv zeta.
    specialize (IH p l2 (fst (recordInto e g q (prepare e g q (l1 ++ p :: l2) c)))). cbv zeta in IH. fold c0 in IH.
    destruct (recordInto e g q (prepare e g q (l1 ++ p :: l2) c)) as [c2 k] eqn:Er. cbn [fst snd] in *.
    destruct (record_loop e g (l1 ++ p :: l2) c2) as [[c3 k3] tr]. cbn [fst snd] in *.
    destruct IH as (tr1 & x & tr2 & aft & E1 & E2 & E3 & E4). exists ((q, prepare e g q (l1 ++ p :: l2) c, recorded_index e q) :: tr1), x, tr2, aft.
    rewrite E1, E4. cbn [app map fst]. rewrite E2. repeat split; auto. rewrite <- app_assoc. reflexivity.
Qed.
Lemma graph_trace e g deps l1 p l2 : exists c tr1 x tr2 before after,
  snd (record_graph e g deps (l1 ++ p :: l2)) = tr1 ++ (p, c, x) :: tr2 /\ map (fun y => fst (fst y)) tr1 = l1 /\ map (fun y => fst (fst y)) tr2 = l2 /\
  snd (fst (record_graph e g deps (l1 ++ p :: l2))) = before ++ snd (recordInto e g p c) ++ after.
Proof.
  unfold record_graph. pose proof (loop_trace e g l1 p l2 (start_context e deps (l1 ++ p :: l2))) as H. cbv zeta in H. destruct H as (tr1 & x & tr2 & aft & E1 & E2 & E3 & E4).
  destruct (record_loop e g (l1 ++ p :: l2) (start_context e deps (l1 ++ p :: l2))) as [[c3 k3] tr]. cbn [fst snd] in *.
  eexists _, tr1, x, tr2, _, aft. repeat split; eassumption.
Qed.

(* ---- the contexts kept ---- *)
Section Kept.
Context (k : again_conf).
Definition saves (tr : list (rpass * rctx * N)) (saved : N -> nat -> rctx) := fold_left (fun saved x => save k (fst (fst x)) (snd (fst x)) saved) tr saved.
Lemma saves_other tr id i : (forall y, In y tr -> rp_id (fst (fst y)) <> id) -> forall saved, saves tr saved id i = saved id i.
Proof.
  induction tr as [|y tr IH]; intros H saved; [reflexivity|]. cbn [saves fold_left]. fold (saves tr (save k (fst (fst y)) (snd (fst y)) saved)).
  rewrite IH by (intros z Hz; apply H; right; exact Hz). unfold save. destruct (ac_resettable k _); [|reflexivity].
  specialize (H y (or_introl eq_refl)). destruct (N.eqb_spec id (rp_id (fst (fst y)))); [congruence|reflexivity].
Qed.
Lemma saves_one tr1 p c x tr2 saved : ac_resettable k (rp_id p) = true -> ~ In (rp_id p) (map rp_id (map (fun y => fst (fst y)) tr2)) ->
  saves (tr1 ++ (p, c, x) :: tr2) saved (rp_id p) (rp_index p) = c.
Proof.
  intros R H. unfold saves. rewrite fold_left_app. cbn [fold_left fst snd]. fold (saves tr1 saved). fold (saves tr2 (save k p c (saves tr1 saved))).
  rewrite saves_other.
  - unfold save. rewrite R, N.eqb_refl, PeanoNat.Nat.eqb_refl. reflexivity.
  - intros y Hy E. apply H. rewrite map_map. apply in_map_iff. exists y. auto.
Qed.
Lemma again_keeps s e p : ag_graph (fst (again_step k s (AgAgain e p))) = ag_graph s /\ forall id i, ag_saved (fst (again_step k s (AgAgain e p))) id i = ag_saved s id i.
Proof.
  unfold again_step. destruct (Nat.ltb _ _); [|split; reflexivity]. split; [reflexivity|]. intros id i. cbn [fst ag_saved]. unfold save. destruct (ac_resettable k (rp_id p)); [|reflexivity].
  destruct (N.eqb_spec id (rp_id p)) as [->|]; [|reflexivity]. destruct (PeanoNat.Nat.eqb_spec i (rp_index p)) as [->|]; reflexivity.
Qed.
Lemma run_app l : forall s r, fst (again_run k s (l ++ r)) = fst (again_run k (fst (again_run k s l)) r).
Proof.
  induction l as [|o l IH]; intros s r; [reflexivity|]. cbn [app again_run]. destruct (again_step k s o) as [s1 out]. specialize (IH s1 r).
  destruct (again_run k s1 (l ++ r)) as [s2 o2]. destruct (again_run k s1 l) as [s3 o3]. exact IH.
Qed.
Lemma run_cons s o r : fst (again_run k s (o :: r)) = fst (again_run k (fst (again_step k s o)) r).
Proof. cbn [again_run]. destruct (again_step k s o) as [s1 out]. cbn [fst]. destruct (again_run k s1 r) as [s2 o2]. reflexivity. Qed.
Lemma agains_keep l : Forall is_again l -> forall s, ag_graph (fst (again_run k s l)) = ag_graph s /\ forall id i, ag_saved (fst (again_run k s l)) id i = ag_saved s id i.
Proof.
  induction 1 as [|o l Ho _ IH]; intro s; [split; reflexivity|]. rewrite run_cons. destruct o as [|e p]; [destruct Ho|].
  destruct (again_keeps s e p) as [A B]. destruct (IH (fst (again_step k s (AgAgain e p)))) as [C D]. split; [congruence|]. intros id i. rewrite D. apply B.
Qed.
Lemma graph_records_split l : forall s, graph_records k s l = graph_records k s (filter recording l).
Proof.
  assert (G : forall l s s', ag_graph s = ag_graph s' -> graph_records k s l = graph_records k s' l).
  { clear l. induction l as [|o l IH]; intros s s' E; [reflexivity|]. cbn [graph_records]. destruct o as [e deps passes|e p]; cbn [recording].
    - unfold records. cbn [again_step]. rewrite E. destruct (record_graph e (ag_graph s') deps passes) as [[g kk] tr]. cbn [fst snd]. f_equal. apply IH. reflexivity.
    - cbn [app]. apply IH. destruct (again_keeps s e p) as [-> _]. destruct (again_keeps s' e p) as [-> _]. exact E. }
  induction l as [|o l IH]; intro s; [reflexivity|]. cbn [graph_records filter]. destruct o as [e deps passes|e p]; cbn [recording].
  - cbn [graph_records recording]. f_equal. apply IH.
  - cbn [app]. rewrite (G l _ s) by apply again_keeps. apply IH.
Qed.
Lemma never_saved_from id i l : (ac_resettable k id = false \/ forallb (fun o => negb (recording o)) l = true) -> forall s, ag_saved (fst (again_run k s l)) id i = ag_saved s id i.
Proof.
  induction l as [|o l IH]; intros H s; [reflexivity|]. rewrite run_cons.
  assert (H2 : ac_resettable k id = false \/ forallb (fun o => negb (recording o)) l = true) by (destruct H as [H|H]; [left; exact H|right; apply andb_prop in H; apply H]).
  rewrite IH by exact H2. destruct o as [e deps passes|e p]; [|apply again_keeps]. destruct H as [H|H]; [|discriminate].
  cbn [again_step]. destruct (record_graph e (ag_graph s) deps passes) as [[g' c] tr]. cbn [fst ag_saved].
  generalize (ag_saved s). induction tr as [|y tr IHt]; intro saved; [reflexivity|]. cbn [fold_left]. rewrite IHt. unfold save.
  destruct (ac_resettable k (rp_id (fst (fst y)))) eqn:E; [|reflexivity]. destruct (N.eqb_spec id (rp_id (fst (fst y)))) as [X|X]; [|reflexivity]. rewrite X in H. congruence.
Qed.
Lemma never_saved id i l g0 : (ac_resettable k id = false \/ forallb (fun o => negb (recording o)) l = true) -> ag_saved (after_ops k g0 l) id i = new_rctx.
Proof. intro H. unfold after_ops. rewrite never_saved_from by exact H. reflexivity. Qed.
End Kept.

(* ---- the same commands ---- *)
Section Same.
Context (e : env) (p : rpass) (g g' : rgraph) (Hi : g_inputs g' = g_inputs g).
(* Something is known of a view *)
Definition somehow (c : rctx) (v : view) : Prop := exists layer mip s, in_range (v_range v) layer mip /\ htracked (rc_images c) (i_id (v_image v)) layer mip = Some s.
Definition simple (c : rctx) : Prop := never_undefined (rc_images c) /\ rc_implicit c = [].
Lemma somehow_known c v : view_ok v -> never_undefined (rc_images c) -> somehow c v <-> layout_in (rc_images c) v <> L_UNDEFINED.
Proof.
  intros [Hr Ht] Hn. destruct (get_range (rc_images c) (v_image v) (v_type v) (v_range v) Ht Hr) as [(l & m & s & A & B & C)|[A B]]; unfold layout_in.
  - split; [|intros _; exists l, m, s; auto]. intros _. rewrite <- C. apply (never_tracked _ _ _ _ _ Hn B).
  - split; [|congruence]. intros (l & m & s & C & D). rewrite (A l m C) in D. discriminate.
Qed.
Definition grows (c c' : rctx) : Prop := simple c' /\ forall v, somehow c v -> somehow c' v.
Lemma grows_refl c : simple c -> grows c c. Proof. intro H. split; auto. Qed.
Lemma grows_trans a b c : grows a b -> grows b c -> grows a c. Proof. intros [_ A] [H B]. split; auto. Qed.
Lemma grows_set c v s : view_ok v -> ls_layout s <> L_UNDEFINED -> simple c -> grows c (rc_setLayoutState c (v_image v) (v_type v) (v_range v) s).
Proof.
  intros Hv Hs [Hn H0]. split; [split; [apply never_set; assumption|exact H0]|]. intros w (l & m & x & A & B). exists l, m. rewrite set_tracked by exact Hv.
  destruct (andb _ _); eauto.
Qed.
Lemma grows_barrier c v initial wanted : view_ok v -> ls_layout wanted <> L_UNDEFINED -> simple c -> grows c (fst (memoryBarrier_view (e_separate e) c v initial wanted)).
Proof.
  intros Hv Hs H. unfold memoryBarrier_view. destruct (barrier_cases (e_separate e) c (v_image v) (v_type v) (v_range v) initial wanted false) as [[_ E]|[_ E]]; rewrite E; cbn [fst]; [apply grows_set; assumption|apply grows_refl, H].
Qed.
Lemma grows_current c v : view_ok v -> simple c -> grows c (fst (getCurrentLayoutState g c (v_image v) (v_type v) (v_range v))).
Proof.
  intros Hv H. unfold getCurrentLayoutState. repeat match goal with |- context [negb (N.eqb (ls_layout ?s) L_UNDEFINED)] => destruct (N.eqb_spec (ls_layout s) L_UNDEFINED); cbn [negb fst] end; try (apply grows_refl, H); apply grows_set; assumption.
Qed.
Lemma current_same c v : view_ok v -> never_undefined (rc_images c) ->
  somehow c v \/ layout_in (g_inputs g) v <> L_UNDEFINED \/ rc_getLayoutState (g_final g) (v_image v) (v_type v) (v_range v) = rc_getLayoutState (g_final g') (v_image v) (v_type v) (v_range v) ->
  getCurrentLayoutState g' c (v_image v) (v_type v) (v_range v) = getCurrentLayoutState g c (v_image v) (v_type v) (v_range v).
Proof.
  intros Hv Hn H. unfold getCurrentLayoutState. rewrite Hi.
  destruct (N.eqb_spec (ls_layout (rc_getLayoutState c (v_image v) (v_type v) (v_range v))) L_UNDEFINED) as [E|E]; cbn [negb]; [|reflexivity].
  destruct (N.eqb_spec (ls_layout (getLayoutState (g_inputs g) (v_image v) (v_type v) (v_range v))) L_UNDEFINED) as [E1|E1]; cbn [negb]; [|reflexivity].
  destruct H as [H|[H|H]]; [apply (somehow_known c v Hv Hn) in H; contradiction|contradiction|]. rewrite H. reflexivity.
Qed.
Lemma seq_fst (x : rctx * list cmd) f : fst (x >>> f) = fst (f (fst x)).
Proof. destruct x as [c l]. cbn [seq2 fst]. destruct (f c). reflexivity. Qed.
Lemma implicit_none c i v : rc_implicit c = [] -> runImplicit e c i v = (c, []).
Proof. intro H. unfold runImplicit. rewrite H. cbn [length runImplicit_fuel]. try rewrite H. reflexivity. Qed.
Definition bringing (a : attach) : bool := andb (negb (isNoTransition a)) (orb (orb (isSampledView a) (isStorageView a)) (orb (isTransferView a) (isTransitionView a))).
Lemma image_same a c : view_ok (attach_view a (rp_index p)) -> (has_transition a = true -> a_getImageLayout a (e_separate e) <> L_UNDEFINED) -> simple c ->
  (isInput a = true -> let v := attach_view a (rp_index p) in somehow c v \/ layout_in (g_inputs g) v <> L_UNDEFINED \/ rc_getLayoutState (g_final g) (v_image v) (v_type v) (v_range v) = rc_getLayoutState (g_final g') (v_image v) (v_type v) (v_range v)) ->
  record_image e g' p a c = record_image e g p a c /\ grows c (fst (record_image e g p a c)).
Proof.
  intros Hv Hl Hc Hs. unfold record_image. rewrite (implicit_none c _ _ (proj2 Hc)). cbn [seq2].
  set (v := attach_view a (rp_index p)) in *. change (andb (negb (isNoTransition a)) _) with (has_transition a).
  destruct (has_transition a) eqn:Et; [|split; [reflexivity|apply grows_refl, Hc]]. specialize (Hl eq_refl).
  assert (Wn : ls_layout (makeLayoutState (a_getImageLayout a (e_separate e))) <> L_UNDEFINED) by exact Hl.
  assert (X : (if isInput a then getCurrentLayoutState g' c (v_image v) (v_type v) (v_range v) else (c, makeLayoutState L_UNDEFINED)) =
              (if isInput a then getCurrentLayoutState g c (v_image v) (v_type v) (v_range v) else (c, makeLayoutState L_UNDEFINED))).
  { destruct (isInput a); [|reflexivity]. apply current_same; [exact Hv|apply Hc|apply Hs; reflexivity]. }
  rewrite X. split; [reflexivity|]. clear X.
  assert (G : grows c (fst (if isInput a then getCurrentLayoutState g c (v_image v) (v_type v) (v_range v) else (c, makeLayoutState L_UNDEFINED)))).
  { destruct (isInput a); [apply grows_current; assumption|apply grows_refl, Hc]. }
  destruct (if isInput a then _ else _) as [c1 cur]. cbn [fst] in G.
  destruct (isClearableImage a); cbn [app].
  - match goal with |- grows c (fst (let '(c2, l2) := ?X in (c2, l2))) => replace (fst (let '(c2, l2) := X in (c2, l2))) with (fst X) by (destruct X; reflexivity) end.
    rewrite !seq_fst. unfold emit. cbn [fst].
    assert (G1 : grows c1 (fst (memoryBarrier_view (e_separate e) c1 v (ls_layout cur) transfer_dst_state))) by (apply grows_barrier; [exact Hv|discriminate|apply G]).
    apply (grows_trans _ _ _ G). apply (grows_trans _ _ _ G1). apply grows_barrier; [exact Hv|exact Wn|apply G1].
  - match goal with |- grows c (fst (let '(c2, l2) := ?X in (c2, l2))) => replace (fst (let '(c2, l2) := X in (c2, l2))) with (fst X) by (destruct X; reflexivity) end.
    apply (grows_trans _ _ _ G). apply grows_barrier; [exact Hv|exact Wn|apply G].
Qed.
Lemma images_same l : forall c, (forall a, In a l -> view_ok (attach_view a (rp_index p)) /\ (has_transition a = true -> a_getImageLayout a (e_separate e) <> L_UNDEFINED)) -> simple c ->
  (forall a, In a l -> isInput a = true -> let v := attach_view a (rp_index p) in somehow c v \/ layout_in (g_inputs g) v <> L_UNDEFINED \/ rc_getLayoutState (g_final g) (v_image v) (v_type v) (v_range v) = rc_getLayoutState (g_final g') (v_image v) (v_type v) (v_range v)) ->
  run_all (record_image e g' p) l c = run_all (record_image e g p) l c.
Proof.
  induction l as [|a l IH]; intros c H Hc Hs; [reflexivity|]. rewrite !run_all_cons. destruct (H a (or_introl eq_refl)) as [Hv Hl].
  destruct (image_same a c Hv Hl Hc (Hs a (or_introl eq_refl))) as [E [G1 G2]]. rewrite E.
  destruct (record_image e g p a c) as [c1 l1]. cbn [fst] in *. cbn [seq2]. rewrite IH; [reflexivity|intros b Hb; apply H; right; exact Hb|exact G1|].
  intros b Hb Ib. cbv zeta. destruct (Hs b (or_intror Hb) Ib) as [A|A]; [left; apply G2, A|right; exact A].
Qed.
Lemma into_same c : regular_pass e p -> simple c -> (forall a, In a (rp_images p) -> settled g g' c p a) -> recordInto e g' p c = recordInto e g p c.
Proof.
  intros H Hc Hs. unfold recordInto. destruct (e_enabled e (rp_id p)); [|reflexivity]. cbn [seq2].
  rewrite (images_same (rp_images p) c H Hc); [reflexivity|]. intros a Ha Ia. cbv zeta. destruct (Hs a Ha Ia) as [A|A]; [left|right; exact A].
  apply (somehow_known c _ (proj1 (H a Ha)) (proj1 Hc)). exact A.
Qed.
End Same.
