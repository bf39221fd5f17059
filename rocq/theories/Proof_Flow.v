(* Proofs about the contents of a view. *)
From Verif Require Import Spec_Flow Proof_Layout Proof_Record Proof_Run2 Proof_Run3 Proof_Device Proof_Device2 Proof_Device3.
Local Open Scope N_scope.

Lemma elsewhere_sub v w r : separate_views w v -> (forall layer mip, in_range r layer mip -> in_range (v_range w) layer mip) -> elsewhere (i_id (v_image w)) r v.
Proof. intros [S|S] H; [left; exact S|right]. intros layer mip R R'. exact (S layer mip (H _ _ R) R'). Qed.
Lemma elsewhere_self v w : separate_views w v -> elsewhere (i_id (v_image w)) (v_range w) v.
Proof. intro S. apply elsewhere_sub; auto. Qed.
Lemma first_sub_in w : view_ok w -> forall layer mip, in_range (first_sub (v_range w)) layer mip -> in_range (v_range w) layer mip.
Proof. intros [(A & B & _) _] layer mip. unfold in_range, first_sub. cbn. lia. Qed.
Lemma adapt_elsewhere sep f w v : separate_views w v -> elsewhere (i_id (v_image w)) (adaptRange sep f (v_range w)) v.
Proof. intro S. apply elsewhere_sub; [exact S|]. intros layer mip H. apply adapt_in_range in H. exact H. Qed.

Section Flow.
Context (own : bool) (e : env) (g : rgraph) (v : view) (Hv : view_ok v).

Lemma aware_known c : known_layout c v <> L_UNDEFINED -> aware own g v c.
Proof. intro K. unfold aware. destruct own; [exact K|]. rewrite said_known; exact K. Qed.
Lemma aware_ext c c' : known_layout c' v = known_layout c v -> aware own g v c -> aware own g v c'.
Proof. intros E A. unfold aware in *. destruct own; [rewrite E; exact A|]. rewrite (said_ext g c c' v E). exact A. Qed.
Lemma own_known c : own = true -> aware own g v c -> known_layout c v <> L_UNDEFINED.
Proof. intros E A. unfold aware in A. rewrite E in A. exact A. Qed.

Definition flows (c : rctx) (x : rctx * list cmd) : Prop :=
  Forall (preserves v) (snd x) /\ aware own g v (fst x) /\ incl (rc_implicit (fst x)) (rc_implicit c).
Lemma flows_ret c : aware own g v c -> flows c (c, []).
Proof. intro A. split; [constructor|]. split; [exact A|apply incl_refl]. Qed.
Lemma flows_emit c l : aware own g v c -> Forall (preserves v) l -> flows c (emit l c).
Proof. intros A H. split; [exact H|]. split; [exact A|apply incl_refl]. Qed.
Lemma flows_seq c x f : flows c x -> (aware own g v (fst x) -> incl (rc_implicit (fst x)) (rc_implicit c) -> flows (fst x) (f (fst x))) -> flows c (x >>> f).
Proof.
  intros (A & B & C) H. specialize (H B C). destruct x as [c1 l1]. cbn [fst snd] in *. cbn [seq2]. destruct (f c1) as [c2 l2]. destruct H as (A2 & B2 & C2). cbn [fst snd] in *.
  split; [apply Forall_app; auto|]. split; [exact B2|exact (incl_tran C2 C)].
Qed.
Lemma flows_weak c c' x : rc_implicit c' = rc_implicit c -> flows c' x -> flows c x.
Proof. intros E (A & B & C). rewrite E in C. split; [exact A|split; assumption]. Qed.

(* Barriers. *)
Lemma flows_barrier_separate sep c w initial wanted : view_ok w -> separate_views w v -> aware own g v c ->
  flows c (memoryBarrier sep c (v_image w) (v_type w) (v_range w) initial wanted false).
Proof.
  intros Hw S A. destruct (barrier_cases sep c (v_image w) (v_type w) (v_range w) initial wanted false) as [[_ ->]|[_ ->]]; [|apply flows_ret, A].
  split; cbn [fst snd].
  - constructor; [|constructor]. cbn [preserves]. left. apply adapt_elsewhere, S.
  - split; [|apply incl_refl]. apply (aware_ext c); [|exact A]. apply (set_known c w v wanted Hw Hv), S.
Qed.
Lemma flows_barrier_same sep c w initial wanted : view_ok w -> same_region w v -> known_layout c v <> L_UNDEFINED \/ initial <> L_UNDEFINED -> aware own g v c ->
  let x := memoryBarrier sep c (v_image w) (v_type w) (v_range w) initial wanted false in
  flows c x /\ (known_layout c v <> L_UNDEFINED -> known_layout (fst x) v <> L_UNDEFINED).
Proof.
  intros Hw S K A. destruct (barrier_cases sep c (v_image w) (v_type w) (v_range w) initial wanted false) as [[Hn ->]|[_ ->]]; [|split; [apply flows_ret, A|auto]].
  destruct Hn as [Hn|[_ Hn]]; [discriminate|].
  assert (Kw : known_layout (rc_setLayoutState c (v_image w) (v_type w) (v_range w) wanted) v <> L_UNDEFINED).
  { rewrite (proj1 (set_known c w v wanted Hw Hv) S). exact Hn. }
  split; [|intros _; exact Kw]. split; cbn [fst snd].
  - constructor; [|constructor]. cbn [preserves]. right. unfold known_state. fold (known_layout c w).
    rewrite (region_known c w v Hw Hv S). destruct (N.eqb_spec (known_layout c v) L_UNDEFINED) as [Z|Z].
    + destruct K as [K|K]; [contradiction|exact K].
    + change (known_layout c w <> L_UNDEFINED). rewrite (region_known c w v Hw Hv S). exact Z.
  - split; [|apply incl_refl]. apply aware_known, Kw.
Qed.
Lemma flows_barrier_to c w l : near v w -> (own = true \/ separate_views w v) -> aware own g v c -> flows c (barrier_to e c w l).
Proof.
  intros [Hw [S|S]] O A; [|apply flows_barrier_separate; assumption].
  destruct O as [O|O]; [|apply flows_barrier_separate; assumption].
  apply flows_barrier_same; try assumption. left. apply own_known; assumption.
Qed.
Lemma flows_final c w l : view_ok w -> separate_views w v -> aware own g v c -> flows c (final_barrier e c w l).
Proof. intros Hw S A. unfold final_barrier. destruct (N.eqb l L_UNDEFINED); [apply flows_ret, A|apply flows_barrier_separate; assumption]. Qed.

(* Implicit actions. *)
Definition clean (i : nat) (c : rctx) : Prop := forall p w a, In (p, w, a) (rc_implicit c) -> careful_action own e g v i a.
Lemma clean_incl i c c' : incl (rc_implicit c') (rc_implicit c) -> clean i c -> clean i c'.
Proof. intros H P p w a Hx. apply (P p w), H, Hx. Qed.
Lemma flows_implicit i : forall fuel c w, clean i c -> aware own g v c -> flows c (runImplicit_fuel fuel e c i w).
Proof.
  induction fuel as [|fuel IH]; intros c w P A; cbn [runImplicit_fuel];
    (destruct (take_first (v_id w) (rc_implicit c)) as [[[q a] rest]|] eqn:E; [|apply flows_ret, A]);
    destruct (take_first_in _ _ _ _ _ E) as [(u & Hu & _) Hr];
    (assert (A' : aware own g v (set_implicit c rest)) by (apply (aware_ext c); [reflexivity|exact A]));
    (assert (W : forall x, flows (set_implicit c rest) x -> flows c x) by (intros x (X1 & X2 & X3); split; [exact X1|split; [exact X2|exact (incl_tran X3 Hr)]]));
    apply W; (destruct (e_enabled e q); [apply flows_ret, A'|]); [apply flows_ret, A'|].
  assert (P' : clean i (set_implicit c rest)) by (apply (clean_incl i c); [exact Hr|exact P]).
  specialize (P q u a Hu). destruct a as [src dst x y final|src dst [sx sy] [sw sh] [dx dy] [dw dh] fil final|views final|tag]; cbn [careful_action] in P.
  - destruct P as (Ns & Os & Od & Sd).
    apply flows_seq; [apply flows_seq; [apply flows_seq; [apply flows_seq; [apply IH; assumption|]|]|]|]; intros A1 _.
    + apply flows_barrier_to; assumption.
    + apply flows_barrier_separate; assumption.
    + apply flows_emit; [exact A1|]. constructor; [|constructor]. cbn [preserves]. apply elsewhere_sub; [exact Sd|apply first_sub_in, Od].
    + apply flows_final; assumption.
  - destruct P as (Ns & Os & Od & Sd).
    apply flows_seq; [apply flows_seq; [apply flows_seq; [apply flows_seq; [apply IH; assumption|]|]|]|]; intros A1 _.
    + apply flows_barrier_to; assumption.
    + apply flows_barrier_separate; assumption.
    + apply flows_emit; [exact A1|]. constructor; [|constructor]. cbn [preserves]. apply elsewhere_sub; [exact Sd|apply first_sub_in, Od].
    + apply flows_final; assumption.
  - cbn zeta in P. destruct P as (Od & Sd). set (dst := match views with [x] => x | l => nth i l dummy_view end) in *. clearbody dst.
    apply flows_seq; [apply flows_seq|]; try intros A1 _.
    + apply flows_barrier_separate; assumption.
    + apply flows_emit; [exact A1|]. constructor; [|constructor]. destruct (isColourFormat (v_format dst)); cbn [preserves]; apply elsewhere_self, Sd.
    + apply flows_final; assumption.
  - apply (P (set_implicit c rest) A').
Qed.

(* The attachments. *)
Lemma flows_image p a c : let w := attach_view a (rp_index p) in near v w ->
  (has_transition a = true -> same_region w v -> isClearableImage a = false /\ (own = true \/ isInput a = true)) ->
  clean (rp_index p) c -> aware own g v c -> flows c (record_image e g p a c).
Proof.
  intros w [Hw D] Ha P A. unfold record_image. fold w. apply flows_seq; [apply flows_implicit; assumption|].
  intros A0 _. destruct (runImplicit e c (rp_index p) w) as [c0 l0]. cbn [fst] in *. clear l0.
  unfold has_transition in Ha. match goal with |- flows _ (if ?b then _ else _) => destruct b eqn:T end; [|apply flows_ret, A0].
  set (needed := makeLayoutState (a_getImageLayout a (e_separate e))). clearbody needed.
  destruct D as [R|S].
  - destruct (Ha eq_refl R) as [Cl O]. rewrite Cl. unfold memoryBarrier_view.
    destruct (isInput a) eqn:Ia.
    + destruct (getCurrentLayoutState g c0 (v_image w) (v_type w) (v_range w)) as [c1 s] eqn:E.
      assert (T' : ls_layout s = said g c0 w) by (unfold said; rewrite E; reflexivity).
      destruct (current_known g c0 w Hw c1 s E) as (I1 & I2 & I3 & _).
      assert (Ns : ls_layout s <> L_UNDEFINED).
      { rewrite T', (region_said g c0 w v Hw Hv R). unfold aware in A0. destruct own; [rewrite said_known; exact A0|exact A0]. }
      assert (K1 : known_layout c1 v <> L_UNDEFINED) by (rewrite <- (region_known c1 w v Hw Hv R); unfold known_layout; rewrite I2 by exact Ns; exact Ns).
      apply (flows_weak c0 c1); [exact I1|]. apply flows_barrier_same; try assumption; [left; exact K1|apply aware_known, K1].
    + destruct O as [O|O]; [|discriminate]. apply flows_barrier_same; try assumption. left. apply own_known; assumption.
  - assert (C : exists c1 cur, (if isInput a then getCurrentLayoutState g c0 (v_image w) (v_type w) (v_range w) else (c0, makeLayoutState L_UNDEFINED)) = (c1, cur)
      /\ aware own g v c1 /\ rc_implicit c1 = rc_implicit c0).
    { destruct (isInput a); [|exists c0, (makeLayoutState L_UNDEFINED); auto].
      destruct (getCurrentLayoutState g c0 (v_image w) (v_type w) (v_range w)) as [c1 s] eqn:E. exists c1, s. split; [reflexivity|].
      destruct (current_known g c0 w Hw c1 s E) as (I1 & _ & _ & I4). split; [|exact I1]. apply (aware_ext c0); [|exact A0]. apply I4; assumption. }
    destruct C as (c1 & cur & -> & A1 & I1). apply (flows_weak c0 c1); [exact I1|]. unfold memoryBarrier_view.
    destruct (isClearableImage a); [|apply flows_barrier_separate; assumption].
    apply flows_seq; [apply flows_seq|]; try intros A2 _.
    + apply flows_barrier_separate; assumption.
    + apply flows_emit; [exact A2|]. constructor; [|constructor]. destruct (isColourFormat (v_format w)); cbn [preserves]; apply elsewhere_self, S.
    + apply flows_barrier_separate; assumption.
Qed.
Lemma flows_all {B} (P : rctx -> Prop) (f : B -> rctx -> rctx * list cmd) l : (forall c c', incl (rc_implicit c') (rc_implicit c) -> P c -> P c') ->
  (forall a, In a l -> forall c, P c -> aware own g v c -> flows c (f a c)) -> forall c, P c -> aware own g v c -> flows c (run_all f l c).
Proof.
  intro HP. induction l as [|a l IH]; intros H c Pc A; [apply flows_ret, A|]. rewrite run_all_cons. apply flows_seq.
  - apply H; [left; reflexivity|exact Pc|exact A].
  - intros A1 I1. apply IH; [intros b Hb; apply H; right; exact Hb|exact (HP _ _ I1 Pc)|exact A1].
Qed.
Lemma flows_images p c : careful_attaches own v p -> clean (rp_index p) c -> aware own g v c -> flows c (run_all (record_image e g p) (rp_images p) c).
Proof.
  intros H P A. apply (flows_all (clean (rp_index p))); [intros; eapply clean_incl; eassumption| |exact P|exact A].
  intros a Ha c0 P0 A0. destruct (H a Ha) as [N O]. apply flows_image; assumption.
Qed.
Lemma flows_buffers p c : aware own g v c -> flows c (run_all (record_buffer p) (rp_buffers p) c).
Proof.
  intro A. apply (flows_all (fun _ => True)); [auto| |exact I|exact A]. intros a _ c0 _ A0.
  assert (N : forall c b o s m t w f, aware own g v c -> flows c (bufferBarrier c b o s m t w f)).
  { intros c1 b o s m t w f A1. unfold bufferBarrier. destruct (orb _ _); [|apply flows_ret, A1]. split; [constructor; [exact I|constructor]|]. split; [|apply incl_refl]. apply (aware_ext c1); [reflexivity|exact A1]. }
  unfold record_buffer. destruct (andb _ _); [|apply flows_ret, A0]. destruct (isClearableBuffer a); [|apply N, A0].
  apply flows_seq; [apply flows_seq; [apply N, A0|]|].
  - intros A1 _. apply flows_emit; [exact A1|constructor; [exact I|constructor]].
  - intros A1 _. apply N, A1.
Qed.
Lemma flows_funs i (l : list (rctx -> nat -> rctx * list cmd)) c : (forall f, In f l -> careful_at own g v i f) -> aware own g v c -> flows c (run_all (fun f c => f c i) l c).
Proof.
  intros H A. apply (flows_all (fun _ => True)); [auto| |exact I|exact A]. intros f Hf c0 _ A0. apply (H f Hf c0 A0).
Qed.

(* Before the body of a pass. *)
Definition opening (p : rpass) (c : rctx) : rctx * list cmd :=
  (c, [CBeginBlock (rp_id p); CTimerBegin (rp_id p)]) >>> run_all (record_image e g p) (rp_images p) >>> run_all (record_buffer p) (rp_buffers p)
  >>> run_all (fun f c => f c (rp_index p)) (rp_pre p).
Definition closing (p : rpass) (c : rctx) : rctx * list cmd :=
  run_all (fun f c => f c (rp_index p)) (rp_post p) c >>> emit [CTimerEnd (rp_id p); CEndBlock].
Lemma into_opening p c : e_enabled e (rp_id p) = true ->
  let o := opening p c in let b := rp_record p (fst o) (rp_index p) in let z := closing p (fst b) in
  recordInto e g p c = (register_all p (fst z), snd o ++ snd b ++ snd z).
Proof.
  intros En o b z. unfold recordInto. rewrite En. fold (opening p c). subst z b. fold o. destruct o as [c1 l1]. cbn [fst snd seq2].
  destruct (rp_record p c1 (rp_index p)) as [c2 l2]. cbn [fst snd seq2]. unfold closing.
  destruct (run_all (fun (f : rctx -> nat -> rctx * list cmd) c => f c (rp_index p)) (rp_post p) c2) as [c3 l3]. cbn [seq2 emit fst snd]. rewrite <- !app_assoc. reflexivity.
Qed.
Lemma flows_opening p c : careful_before own g v p -> clean (rp_index p) c -> aware own g v c -> flows c (opening p c).
Proof.
  intros [Ha Hp] P A. unfold opening. apply flows_seq; [apply flows_seq; [apply flows_seq|]|].
  - apply flows_emit; [exact A|]. repeat constructor.
  - cbn [fst]. intros A1 _. apply flows_images; assumption.
  - intros A1 _. apply flows_buffers, A1.
  - intros A1 _. apply flows_funs; assumption.
Qed.
Lemma flows_closing p c : (forall f, In f (rp_post p) -> careful_at own g v (rp_index p) f) -> aware own g v c -> flows c (closing p c).
Proof.
  intros H A. unfold closing. apply flows_seq; [apply flows_funs; assumption|]. intros A1 _. apply flows_emit; [exact A1|]. repeat constructor.
Qed.
End Flow.
