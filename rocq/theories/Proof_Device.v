(* Layouts stated by the recorded commands. *)
From Verif Require Import Spec_Device Proof_Layout Proof_Record Proof_Run2.
Local Open Scope N_scope.

Lemma after_app d l1 l2 : after_all d (l1 ++ l2) = after_all (after_all d l1) l2.
Proof. apply fold_left_app. Qed.
Lemma legal_app l1 : forall d l2, all_legal d (l1 ++ l2) <-> all_legal d l1 /\ all_legal (after_all d l1) l2.
Proof.
  induction l1 as [|c l1 IH]; intros d l2; cbn [all_legal app]; [cbn; tauto|]. rewrite IH. cbn [after_all fold_left]. tauto.
Qed.
Lemma neutral_all l : Forall neutral l -> forall d, all_legal d l /\ after_all d l = d.
Proof.
  induction l as [|c l IH]; intros H d; [split; [exact I|reflexivity]|]. inversion H as [|? ? [A B] H']; subst.
  destruct (IH H' d) as [L E]. split.
  - split; [apply A|rewrite B; exact L].
  - cbn [after_all fold_left]. rewrite B. exact E.
Qed.
Lemma put_in d im r l layer mip : in_range r layer mip -> put d im r l im layer mip = l.
Proof. intro H. unfold put. rewrite N.eqb_refl. apply in_rangeb_spec in H. rewrite H. reflexivity. Qed.
Lemma put_out d im r l i layer mip : im <> i \/ ~ in_range r layer mip -> put d im r l i layer mip = d i layer mip.
Proof.
  intro H. unfold put. destruct (N.eqb_spec im i) as [E|E]; cbn [andb]; [|reflexivity].
  destruct (in_rangeb r layer mip) eqn:R; [|reflexivity]. apply in_rangeb_spec in R. destruct H; contradiction.
Qed.
Lemma put_view_same d v w l : same_region v w -> view_in (put d (i_id (v_image v)) (v_range v) l) w l.
Proof.
  intros (Ei & E1 & E2 & E3 & E4) layer mip H. rewrite <- Ei. apply put_in. unfold in_range in *. rewrite E1, E2, E3, E4. exact H.
Qed.
Lemma put_view_other d v w l l' : separate_views v w -> view_in d w l' -> view_in (put d (i_id (v_image v)) (v_range v) l) w l'.
Proof.
  intros S H layer mip R. rewrite put_out; [apply H, R|]. destruct S as [S|S]; [left; exact S|right; intro R'; exact (S layer mip R' R)].
Qed.

(* What is said about a view. *)
Lemma said_spec g c v : said g c v = if N.eqb (known_layout c v) L_UNDEFINED
  then if N.eqb (ls_layout (getLayoutState (g_inputs g) (v_image v) (v_type v) (v_range v))) L_UNDEFINED
       then ls_layout (rc_getLayoutState (g_final g) (v_image v) (v_type v) (v_range v))
       else ls_layout (getLayoutState (g_inputs g) (v_image v) (v_type v) (v_range v))
  else known_layout c v.
Proof.
  unfold said, getCurrentLayoutState, known_layout.
  destruct (N.eqb_spec (ls_layout (rc_getLayoutState c (v_image v) (v_type v) (v_range v))) L_UNDEFINED); cbn [negb snd]; [|reflexivity].
  destruct (N.eqb_spec (ls_layout (getLayoutState (g_inputs g) (v_image v) (v_type v) (v_range v))) L_UNDEFINED); cbn [negb snd]; [|reflexivity].
  destruct (N.eqb_spec (ls_layout (rc_getLayoutState (g_final g) (v_image v) (v_type v) (v_range v))) L_UNDEFINED); cbn [negb snd]; reflexivity.
Qed.
Lemma said_known g c v : known_layout c v <> L_UNDEFINED -> said g c v = known_layout c v.
Proof. intro H. rewrite said_spec. destruct (N.eqb_spec (known_layout c v) L_UNDEFINED); [contradiction|reflexivity]. Qed.
Lemma said_ext g c c' v : known_layout c' v = known_layout c v -> said g c' v = said g c v.
Proof. intro H. rewrite !said_spec, H. reflexivity. Qed.
Lemma region_get h v w : v_type v <> VT_3D -> v_type w <> VT_3D -> same_region v w ->
  getLayoutState h (v_image v) (v_type v) (v_range v) = getLayoutState h (v_image w) (v_type w) (v_range w).
Proof.
  intros Hv Hw (Ei & E1 & E2 & E3 & E4). unfold getLayoutState. rewrite !virtual_not3d by assumption. rewrite Ei.
  destruct (mfind (i_id (v_image w)) h) as [m|]; [|reflexivity]. unfold getSubresourceRangeLayout. rewrite E1, E2, E3, E4. reflexivity.
Qed.
Lemma region_known c v w : view_ok v -> view_ok w -> same_region v w -> known_layout c v = known_layout c w.
Proof. intros [_ Hv] [_ Hw] S. unfold known_layout, rc_getLayoutState. rewrite (region_get _ v w); auto. Qed.
Lemma region_said g c v w : view_ok v -> view_ok w -> same_region v w -> said g c v = said g c w.
Proof.
  intros Hv Hw S. rewrite !said_spec, (region_known c v w) by assumption. destruct Hv as [_ Hv], Hw as [_ Hw].
  unfold rc_getLayoutState. rewrite !(region_get _ v w) by assumption. reflexivity.
Qed.
(* Setting the state of a view. *)
Lemma set_known c v w s : view_ok v -> view_ok w ->
  (same_region v w -> known_layout (rc_setLayoutState c (v_image v) (v_type v) (v_range v) s) w = ls_layout s) /\
  (separate_views v w -> known_layout (rc_setLayoutState c (v_image v) (v_type v) (v_range v) s) w = known_layout c w).
Proof.
  intros Hv Hw. split.
  - intro S. rewrite <- (region_known _ v w) by assumption. unfold known_layout. rewrite get_set_view by exact Hv. reflexivity.
  - intros [Hi|Hd]; unfold known_layout, rc_getLayoutState, rc_setLayoutState; cbn [set_images rc_images].
    + rewrite set_frame_image; auto.
    + destruct (N.eq_dec (i_id (v_image v)) (i_id (v_image w))) as [Ei|Ei]; [|rewrite set_frame_image; auto].
      destruct Hv as [Hr' Ht'], Hw as [Hr Ht].
      replace (getLayoutState (setLayoutState (rc_images c) (v_image v) (v_type v) (v_range v) s) (v_image w) (v_type w) (v_range w))
        with (getLayoutState (setLayoutState (rc_images c) (v_image v) (v_type v) (v_range v) s) (v_image v) (v_type w) (v_range w))
        by (unfold getLayoutState; rewrite Ei, !virtual_not3d by assumption; reflexivity).
      replace (getLayoutState (rc_images c) (v_image w) (v_type w) (v_range w)) with (getLayoutState (rc_images c) (v_image v) (v_type w) (v_range w))
        by (unfold getLayoutState; rewrite Ei, !virtual_not3d by assumption; reflexivity).
      apply set_frame_layout; auto. intros a b H1 H2. apply (Hd a b); assumption.
Qed.

Section Regions.
Context (g : rgraph) (F : view -> Prop) (HF : regions F).
Definition right (c : rctx) (d : layouts) : Prop := forall v, F v -> truthful g c d v.
Lemma F_ok v : F v -> view_ok v. Proof. intro H. apply (proj1 HF v H). Qed.

Lemma right_ext c c' d : (forall v, F v -> known_layout c' v = known_layout c v) -> right c d -> right c' d.
Proof. intros E R v Hv. unfold truthful. rewrite (said_ext g c c' v) by (apply E, Hv). apply R, Hv. Qed.

(* The state of a view and its real layout are set together. *)
Lemma right_set c d v s : F v -> ls_layout s <> L_UNDEFINED -> right c d ->
  right (rc_setLayoutState c (v_image v) (v_type v) (v_range v) s) (put d (i_id (v_image v)) (v_range v) (ls_layout s)).
Proof.
  intros Hv Hs R w Hw. destruct (set_known c v w s (F_ok v Hv) (F_ok w Hw)) as [A B].
  destruct (proj2 HF v w Hv Hw) as [S|S].
  - right. rewrite said_known by (rewrite A by exact S; exact Hs). rewrite A by exact S. apply put_view_same, S.
  - unfold truthful. rewrite (said_ext g c) by (apply B, S). destruct (R w Hw) as [E|E]; [left; exact E|right; apply put_view_other; assumption].
Qed.
(* The state of a view is set to the real layout. *)
Lemma right_told c d v s : F v -> view_in d v (ls_layout s) -> right c d -> right (rc_setLayoutState c (v_image v) (v_type v) (v_range v) s) d.
Proof.
  intros Hv Hs R w Hw. destruct (set_known c v w s (F_ok v Hv) (F_ok w Hw)) as [A B].
  destruct (proj2 HF v w Hv Hw) as [S|S].
  - destruct (N.eq_dec (ls_layout s) L_UNDEFINED) as [E|E].
    + assert (K : known_layout (rc_setLayoutState c (v_image v) (v_type v) (v_range v) s) w = L_UNDEFINED) by (rewrite A by exact S; exact E).
      (* nothing is known any more: the rest was already right, or the layout is really UNDEFINED *)
      destruct (R w Hw) as [E'|E'].
      * destruct (N.eq_dec (known_layout c w) L_UNDEFINED) as [Z|Z].
        -- left. rewrite (said_ext g c) by congruence. exact E'.
        -- rewrite said_known in E' by exact Z. contradiction.
      * destruct (N.eq_dec (known_layout c w) L_UNDEFINED) as [Z|Z].
        -- right. rewrite (said_ext g c) by congruence. exact E'.
        -- exfalso. rewrite said_known in E' by exact Z. apply Z.
           assert (In1 : in_range (v_range w) (r_layer (v_range w)) (r_mip (v_range w))).
           { destruct (F_ok w Hw) as [(X1 & X2 & _) _]. unfold in_range. lia. }
           rewrite <- (E' _ _ In1). rewrite <- E. symmetry.
           destruct S as (S0 & S1 & S2 & S3 & S4). rewrite <- S0. symmetry. apply Hs. unfold in_range in *. rewrite S1, S2, S3, S4. exact In1.
    + right. rewrite said_known by (rewrite A by exact S; exact E). rewrite A by exact S.
      intros layer mip H. destruct S as (S0 & S1 & S2 & S3 & S4). rewrite <- S0. apply Hs. unfold in_range in *. rewrite S1, S2, S3, S4. exact H.
  - unfold truthful. rewrite (said_ext g c) by (apply B, S). apply R, Hw.
Qed.

(* Asking for the layout of a view. *)
Lemma right_current c d v c' s : F v -> right c d -> getCurrentLayoutState g c (v_image v) (v_type v) (v_range v) = (c', s) ->
  right c' d /\ rc_implicit c' = rc_implicit c /\ (ls_layout s = L_UNDEFINED \/ view_in d v (ls_layout s)) /\
  (ls_layout s <> L_UNDEFINED -> known_layout c' v = ls_layout s).
Proof.
  intros Hv R E. assert (T : ls_layout s = said g c v) by (unfold said; rewrite E; reflexivity).
  assert (D : ls_layout s = L_UNDEFINED \/ view_in d v (ls_layout s)) by (rewrite T; apply R, Hv).
  destruct (current_known g c v (F_ok v Hv) c' s E) as (I1 & I2 & I3 & _).
  split; [|split; [exact I1|split; [exact D|intro H; unfold known_layout; rewrite I2 by exact H; reflexivity]]].
  unfold getCurrentLayoutState in E.
  destruct (negb (N.eqb (ls_layout (rc_getLayoutState c (v_image v) (v_type v) (v_range v))) L_UNDEFINED)); [injection E as <- <-; exact R|].
  destruct (N.eqb_spec (ls_layout (getLayoutState (g_inputs g) (v_image v) (v_type v) (v_range v))) L_UNDEFINED) as [E1|E1]; cbn [negb] in E.
  2:{ injection E as <- <-. destruct D as [D|D]; [contradiction|]. apply right_told; auto. }
  destruct (N.eqb_spec (ls_layout (rc_getLayoutState (g_final g) (v_image v) (v_type v) (v_range v))) L_UNDEFINED) as [E2|E2]; cbn [negb] in E.
  2:{ injection E as <- <-. destruct D as [D|D]; [contradiction|]. apply right_told; auto. }
  injection E as <- <-. exact R.
Qed.

(* A barrier. *)
Definition good (c : rctx) (d : layouts) (x : rctx * list cmd) : Prop :=
  all_legal d (snd x) /\ right (fst x) (after_all d (snd x)) /\ incl (rc_implicit (fst x)) (rc_implicit c).
Lemma good_barrier sep c d v initial wanted : F v -> right c d -> initial = L_UNDEFINED \/ view_in d v initial ->
  good c d (memoryBarrier sep c (v_image v) (v_type v) (v_range v) initial wanted false).
Proof.
  intros Hv R Hi. destruct (barrier_cases sep c (v_image v) (v_type v) (v_range v) initial wanted false) as [[Hn ->]|[_ ->]]; unfold good; cbn [fst snd].
  - destruct Hn as [Hn|[_ Hn]]; [discriminate|].
    assert (Y : forall l layer mip i, put d i (adaptRange sep (i_format (v_image v)) (v_range v)) l (i_id (v_image v)) layer mip = put d i (v_range v) l (i_id (v_image v)) layer mip).
    { intros. unfold put. destruct (adapt_fields sep (i_format (v_image v)) (v_range v)) as (A & B & C & D). unfold in_rangeb. rewrite A, B, C, D. reflexivity. }
    cbn [all_legal legal after_all fold_left after]. split; [|split; [|apply incl_refl]].
    + split; [|exact I]. split; [|exact Hn].
      assert (K : ls_layout (known_state c (v_image v) (v_type v) (v_range v) initial) = L_UNDEFINED \/
                  view_in d v (ls_layout (known_state c (v_image v) (v_type v) (v_range v) initial))).
      { unfold known_state. fold (known_layout c v). destruct (N.eqb_spec (known_layout c v) L_UNDEFINED) as [E|E]; [exact Hi|].
        destruct (R v Hv) as [T|T]; rewrite said_known in T by exact E; [contradiction|right; exact T]. }
      destruct K as [K|K]; [left; exact K|right]. intros layer mip H. apply adapt_in_range in H. apply K, H.
    + pose proof (right_set c d v wanted Hv Hn R) as Q. intros w Hw. destruct (Q w Hw) as [E|E]; [left; exact E|right].
      intros layer mip H. specialize (E layer mip H). unfold put in *.
      destruct (adapt_fields sep (i_format (v_image v)) (v_range v)) as (A & B & C & D). unfold in_rangeb in *. rewrite A, B, C, D. exact E.
  - split; [exact I|]. split; [exact R|apply incl_refl].
Qed.
Lemma good_seq c d x f : good c d x -> (incl (rc_implicit (fst x)) (rc_implicit c) -> right (fst x) (after_all d (snd x)) -> good (fst x) (after_all d (snd x)) (f (fst x))) ->
  good c d (x >>> f).
Proof.
  intros (A & B & C) H. specialize (H C B). destruct x as [c1 l1]. cbn [fst snd seq2] in *. destruct (f c1) as [c2 l2] eqn:E. destruct H as (A2 & B2 & C2). unfold good. cbn [fst snd] in *.
  split; [apply legal_app; auto|]. split; [rewrite after_app; exact B2|exact (incl_tran C2 C)].
Qed.
Lemma good_ret c d : right c d -> good c d (c, []).
Proof. intro R. split; [exact I|]. split; [exact R|apply incl_refl]. Qed.
Lemma good_neutral c d l : right c d -> Forall neutral l -> good c d (c, l).
Proof. intros R N. destruct (neutral_all l N d) as [A B]. split; [exact A|]. cbn [fst snd]. rewrite B. split; [exact R|apply incl_refl]. Qed.
(* The registered actions. *)
Definition pend (acts : list (view * action)) (c : rctx) : Prop := forall p v a, In (p, v, a) (rc_implicit c) -> In (v, a) acts.
Lemma pend_incl acts c c' : incl (rc_implicit c') (rc_implicit c) -> pend acts c -> pend acts c'.
Proof. intros H P p v a Hx. apply (P p), H, Hx. Qed.
Lemma good_run_all {A} acts (f : A -> rctx -> rctx * list cmd) l : forall c d,
  (forall a, In a l -> forall c d, pend acts c -> right c d -> good c d (f a c)) -> pend acts c -> right c d -> good c d (run_all f l c).
Proof.
  induction l as [|a l IH]; intros c d H I0 R; [apply good_ret, R|]. rewrite run_all_cons. apply good_seq.
  - apply H; [left; reflexivity|exact I0|exact R].
  - intros I1 R1. apply IH; [intros; apply H; [right; assumption|assumption|assumption]|exact (pend_incl acts _ _ I1 I0)|exact R1].
Qed.
(* After a barrier the view is in the layout asked for. *)
Lemma barrier_in sep c d v initial wanted : F v -> right c d -> initial = L_UNDEFINED \/ view_in d v initial -> ls_layout wanted <> L_UNDEFINED ->
  view_in (after_all d (snd (memoryBarrier sep c (v_image v) (v_type v) (v_range v) initial wanted false))) v (ls_layout wanted).
Proof.
  intros Hv R Hi Hw.
  destruct (barrier_cases sep c (v_image v) (v_type v) (v_range v) initial wanted false) as [[Hn ->]|[Hn ->]]; cbn [snd after_all fold_left after].
  - intros layer mip H. apply put_in. apply adapt_in_range, H.
  - assert (K : ls_layout (known_state c (v_image v) (v_type v) (v_range v) initial) = ls_layout wanted).
    { destruct (N.eq_dec (ls_layout (known_state c (v_image v) (v_type v) (v_range v) initial)) (ls_layout wanted)) as [E|E]; [exact E|].
      exfalso. apply Hn. right. auto. }
    unfold known_state in K. fold (known_layout c v) in K. destruct (N.eqb_spec (known_layout c v) L_UNDEFINED) as [E|E].
    + cbn in K. rewrite K in Hi. destruct Hi as [Hi|Hi]; [contradiction|exact Hi].
    + fold (known_layout c v) in K. destruct (R v Hv) as [T|T]; rewrite said_known in T by exact E; [contradiction|]. rewrite <- K. exact T.
Qed.
Lemma good_emit c d l : right c d -> all_legal d l -> after_all d l = d -> good c d (c, l).
Proof. intros R L E. unfold good. cbn [fst snd]. rewrite E. split; [exact L|]. split; [exact R|apply incl_refl]. Qed.

(* What commands leave alone. *)
Definition keeps (T : view -> Prop) (d : layouts) (l : list cmd) : Prop :=
  forall w k, (forall t, T t -> separate_views t w) -> view_in d w k -> view_in (after_all d l) w k.
Lemma keeps_app T d l1 l2 : keeps T d l1 -> keeps T (after_all d l1) l2 -> keeps T d (l1 ++ l2).
Proof. intros A B w k S H. rewrite after_app. apply B; [exact S|]. apply A; assumption. Qed.
Lemma keeps_more (T U : view -> Prop) d l : (forall t, T t -> U t) -> keeps T d l -> keeps U d l.
Proof. intros H K w k S. apply K. intros t Ht. apply S, H, Ht. Qed.
Lemma keeps_same T d l : after_all d l = d -> keeps T d l.
Proof. intros E w k _ H. rewrite E. exact H. Qed.
Lemma keeps_barrier sep c d v initial wanted force : keeps (eq v) d (snd (memoryBarrier sep c (v_image v) (v_type v) (v_range v) initial wanted force)).
Proof.
  intros w k S H. destruct (barrier_cases sep c (v_image v) (v_type v) (v_range v) initial wanted force) as [[_ ->]|[_ ->]]; cbn [snd after_all fold_left after]; [|exact H].
  intros layer mip Q. rewrite put_out; [apply H, Q|]. destruct (S v eq_refl) as [Sw|Sw]; [left; exact Sw|right]. intro Q'. apply (Sw layer mip); [|exact Q]. apply adapt_in_range in Q'. exact Q'.
Qed.
Lemma take_first_in v l p a rest : take_first v l = Some (p, a, rest) -> (exists u, In (p, u, a) l /\ v_id u = v) /\ incl rest l.
Proof.
  revert p a rest. induction l as [|[[p0 w] a0] l IH]; intros p a rest; cbn [take_first]; [discriminate|]. destruct (N.eqb_spec (v_id w) v) as [E|E].
  - intro H. injection H as <- <- <-. split; [exists w; split; [left; reflexivity|exact E]|apply incl_tl, incl_refl].
  - destruct (take_first v l) as [[[p1 a1] r1]|]; [|discriminate]. intro H. injection H as <- <- <-. destruct (IH p1 a1 r1 eq_refl) as [(u & H1 & H2) H3].
    split; [exists u; split; [right; exact H1|exact H2]|]. intros x [<-|Hx]; [left; reflexivity|right; apply H3, Hx].
Qed.
Lemma first_sub_in r layer mip : valid_range r -> in_range (first_sub r) layer mip -> in_range r layer mip.
Proof. unfold valid_range, in_range, first_sub. cbn. lia. Qed.
Lemma first_sub_view d v l : F v -> view_in d v l -> in_layout d (i_id (v_image v)) (first_sub (v_range v)) l.
Proof. intros Fv H layer mip R. apply H, first_sub_in; [apply (F_ok v Fv)|exact R]. Qed.
(* A transfer between two separate views: their transitions, then a command. *)
Lemma good_transfer e c d src dst x final : F src -> F dst -> separate_views src dst -> right c d ->
  (forall d', view_in d' src L_TRANSFER_SRC -> view_in d' dst L_TRANSFER_DST -> legal d' x) -> (forall d', after d' x = d') ->
  let r := (barrier_to e c src L_TRANSFER_SRC >>> (fun c => barrier_to e c dst L_TRANSFER_DST) >>> emit [x] >>> (fun c => final_barrier e c dst final)) in
  good c d r /\ keeps (fun t => t = src \/ t = dst) d (snd r).
Proof.
  intros Fs Ft S R L A. cbv zeta. unfold barrier_to.
  assert (U : L_TRANSFER_SRC <> L_UNDEFINED) by discriminate. assert (U' : L_TRANSFER_DST <> L_UNDEFINED) by discriminate.
  pose proof (good_barrier (e_separate e) c d src L_UNDEFINED (makeLayoutState L_TRANSFER_SRC) Fs R (or_introl eq_refl)) as G1.
  pose proof (keeps_barrier (e_separate e) c d src L_UNDEFINED (makeLayoutState L_TRANSFER_SRC) false) as K1.
  pose proof (barrier_in (e_separate e) c d src L_UNDEFINED (makeLayoutState L_TRANSFER_SRC) Fs R (or_introl eq_refl) U) as V1.
  destruct (memoryBarrier (e_separate e) c (v_image src) (v_type src) (v_range src) L_UNDEFINED (makeLayoutState L_TRANSFER_SRC) false) as [c1 l1]. cbn [fst snd] in *.
  destruct G1 as (A1 & B1 & C1). cbn [fst snd seq2] in *.
  pose proof (good_barrier (e_separate e) c1 (after_all d l1) dst L_UNDEFINED (makeLayoutState L_TRANSFER_DST) Ft B1 (or_introl eq_refl)) as G2.
  pose proof (keeps_barrier (e_separate e) c1 (after_all d l1) dst L_UNDEFINED (makeLayoutState L_TRANSFER_DST) false) as K2.
  pose proof (barrier_in (e_separate e) c1 (after_all d l1) dst L_UNDEFINED (makeLayoutState L_TRANSFER_DST) Ft B1 (or_introl eq_refl) U') as V2.
  destruct (memoryBarrier (e_separate e) c1 (v_image dst) (v_type dst) (v_range dst) L_UNDEFINED (makeLayoutState L_TRANSFER_DST) false) as [c2 l2]. cbn [fst snd] in *.
  destruct G2 as (A2 & B2 & C2). cbn [fst snd seq2 emit] in *. cbn [makeLayoutState ls_layout] in V1, V2.
  assert (S' : separate_views dst src). { destruct S as [S|S]; [left; congruence|right; intros layer mip H1 H2; exact (S layer mip H2 H1)]. }
  assert (V1' : view_in (after_all (after_all d l1) l2) src L_TRANSFER_SRC) by (apply K2; [intros t <-; exact S'|exact V1]).
  assert (E : after_all d ((l1 ++ l2) ++ [x]) = after_all (after_all d l1) l2) by (rewrite !after_app; cbn [after_all fold_left]; apply A).
  assert (G3 : good c d (c2, (l1 ++ l2) ++ [x])).
  { split; cbn [fst snd]; [|split; [rewrite E; exact B2|exact (incl_tran C2 C1)]]. apply legal_app. split; [apply legal_app; auto|]. rewrite after_app. split; [apply L; assumption|exact I]. }
  assert (K3 : keeps (fun t => t = src \/ t = dst) d ((l1 ++ l2) ++ [x])).
  { intros w k Sw H. rewrite E. apply K2; [intros t <-; apply Sw; right; reflexivity|]. apply K1; [intros t <-; apply Sw; left; reflexivity|exact H]. }
  destruct (G3) as (A3 & B3 & C3). cbn [fst snd] in *.
  unfold final_barrier. destruct (N.eqb final L_UNDEFINED); cbn [seq2]; [rewrite app_nil_r; split; assumption|]. unfold barrier_to.
  pose proof (good_barrier (e_separate e) c2 (after_all d ((l1 ++ l2) ++ [x])) dst L_UNDEFINED (makeLayoutState final) Ft B3 (or_introl eq_refl)) as G4.
  pose proof (keeps_barrier (e_separate e) c2 (after_all d ((l1 ++ l2) ++ [x])) dst L_UNDEFINED (makeLayoutState final) false) as K4.
  destruct (memoryBarrier (e_separate e) c2 (v_image dst) (v_type dst) (v_range dst) L_UNDEFINED (makeLayoutState final) false) as [c4 l4]. cbn [fst snd seq2] in *.
  destruct G4 as (A4 & B4 & C4). cbn [fst snd] in *. split.
  - split; cbn [fst snd]; [apply legal_app; auto|]. split; [rewrite after_app; exact B4|exact (incl_tran C4 C3)].
  - apply keeps_app; [exact K3|]. apply (keeps_more (eq dst)); [intros t <-; right; reflexivity|exact K4].
Qed.
(* The implicit transition of a view. *)
Lemma good_implicit e acts i : (forall x, In x acts -> sound_action e F i (snd x)) -> forall fuel c d v, pend acts c -> right c d ->
  good c d (runImplicit_fuel fuel e c i v) /\ keeps (touched acts i v) d (snd (runImplicit_fuel fuel e c i v)).
Proof.
  intro Ha. induction fuel as [|fuel IH]; intros c d v P R.
  all: assert (Z : forall T rest, incl rest (rc_implicit c) -> good c d (set_implicit c rest, []) /\ keeps T d (snd (set_implicit c rest, @nil cmd)))
    by (intros T rest Hr; split; [split; [exact I|split; [apply (right_ext c); [reflexivity|exact R]|exact Hr]]|apply keeps_same; reflexivity]).
  all: cbn [runImplicit_fuel]; destruct (take_first (v_id v) (rc_implicit c)) as [[[p a] rest]|] eqn:E; [|split; [apply good_ret, R|apply keeps_same; reflexivity]].
  all: destruct (take_first_in _ _ _ _ _ E) as [(u & Hu & Eu) Hr]; destruct (e_enabled e p); [apply Z, Hr|].
  - apply Z, Hr.
  - pose proof (P p u a Hu) as Hin. destruct (Ha _ Hin) as [HF1 HS]. cbn [snd] in HF1, HS. set (c1 := set_implicit c rest).
    assert (P1 : pend acts c1) by (apply (pend_incl acts c); [exact Hr|exact P]). assert (R1 : right c1 d) by (apply (right_ext c); [reflexivity|exact R]).
    assert (Up : forall x, good c1 d x -> good c d x) by (intros x (A & B & C); split; [exact A|]; split; [exact B|exact (incl_tran C Hr)]).
    assert (Tr : forall src dst x final, action_source a = Some src -> In src (action_views i a) -> In dst (action_views i a) -> separate_views src dst ->
      (forall d', view_in d' src L_TRANSFER_SRC -> view_in d' dst L_TRANSFER_DST -> legal d' x) -> (forall d', after d' x = d') ->
      let r := (runImplicit_fuel fuel e c1 i src >>> (fun c => barrier_to e c src L_TRANSFER_SRC) >>> (fun c => barrier_to e c dst L_TRANSFER_DST) >>> emit [x] >>> (fun c => final_barrier e c dst final)) in
      good c d r /\ keeps (touched acts i v) d (snd r)).
    { intros src dst x final Es Hs Hd S L A. cbv zeta. destruct (IH c1 d src P1 R1) as [G K]. destruct (runImplicit_fuel fuel e c1 i src) as [c2 l2]. destruct G as (A2 & B2 & C2). cbn [fst snd] in *.
      destruct (good_transfer e c2 (after_all d l2) src dst x final (HF1 src Hs) (HF1 dst Hd) S B2 L A) as [(A3 & B3 & C3) K3]. unfold seq2 in *. cbn [emit] in *.
      destruct (barrier_to e c2 src L_TRANSFER_SRC) as [c3 l3]. destruct (barrier_to e c3 dst L_TRANSFER_DST) as [c4 l4]. destruct (final_barrier e c4 dst final) as [c5 l5]. cbn [fst snd] in *.
      rewrite <- !app_assoc in *. split.
      - split; cbn [fst snd]; [apply legal_app; auto|]. split; [rewrite after_app; exact B3|]. exact (incl_tran C3 (incl_tran C2 Hr)).
      - apply keeps_app.
        + apply (keeps_more (touched acts i src)); [|exact K]. intros t Ht. apply (touched_before acts i v u a src t Hin Eu Es Ht).
        + apply (keeps_more (fun t => t = src \/ t = dst)); [|exact K3]. intros t [-> | ->]; apply (touched_here acts i v u a); assumption. }
    destruct a as [src dst w h final|src dst [sx sy] [sw sh] [dx dy] [dw dh] filter final|views final|tag].
    + apply Tr; [reflexivity|left; reflexivity|right; left; reflexivity|exact HS| |reflexivity]. intros d' V1 V2. cbn [legal].
      split; (split; [left; reflexivity|]); apply first_sub_view; try assumption; apply HF1; [left; reflexivity|right; left; reflexivity].
    + apply Tr; [reflexivity|left; reflexivity|right; left; reflexivity|exact HS| |reflexivity]. intros d' V1 V2. cbn [legal].
      split; (split; [left; reflexivity|]); apply first_sub_view; try assumption; apply HF1; [left; reflexivity|right; left; reflexivity].
    + cbn [action_views] in HF1. set (dst := match views with [x] => x | l => nth i l dummy_view end) in *. cbv zeta.
      assert (Fd : F dst) by (apply HF1; left; reflexivity). assert (Td : forall t, dst = t -> touched acts i v t).
      { intros t <-. apply (touched_here acts i v u (AClear views final)); [exact Hin|exact Eu|]. cbn [action_views]. left. reflexivity. }
      unfold barrier_to.
      pose proof (good_barrier (e_separate e) c1 d dst L_UNDEFINED (makeLayoutState L_TRANSFER_DST) Fd R1 (or_introl eq_refl)) as G1.
      pose proof (keeps_barrier (e_separate e) c1 d dst L_UNDEFINED (makeLayoutState L_TRANSFER_DST) false) as K1.
      pose proof (barrier_in (e_separate e) c1 d dst L_UNDEFINED (makeLayoutState L_TRANSFER_DST) Fd R1 (or_introl eq_refl) ltac:(discriminate)) as V1.
      destruct (memoryBarrier (e_separate e) c1 (v_image dst) (v_type dst) (v_range dst) L_UNDEFINED (makeLayoutState L_TRANSFER_DST) false) as [c2 l2]. cbn [fst snd] in *.
      destruct G1 as (A1 & B1 & C1). cbn [fst snd seq2 emit] in *.
      set (x := if isColourFormat (v_format dst) then _ else _). assert (Ex : forall d', after d' x = d') by (intro d'; unfold x; destruct (isColourFormat _); reflexivity).
      assert (E2 : after_all d (l2 ++ [x]) = after_all d l2) by (rewrite after_app; cbn [after_all fold_left]; apply Ex).
      assert (L2 : all_legal d (l2 ++ [x])). { apply legal_app. split; [exact A1|]. split; [|exact I]. unfold x. destruct (isColourFormat _); (split; [left; reflexivity|exact V1]). }
      assert (K2 : keeps (touched acts i v) d (l2 ++ [x])). { apply (keeps_more (eq dst)); [exact Td|]. intros w k S H. rewrite E2. apply K1; assumption. }
      unfold final_barrier. destruct (N.eqb final L_UNDEFINED); cbn [seq2].
      * rewrite app_nil_r. split; [|exact K2]. split; cbn [fst snd]; [exact L2|]. split; [rewrite E2; exact B1|exact (incl_tran C1 Hr)].
      * unfold barrier_to.
        pose proof (good_barrier (e_separate e) c2 (after_all d (l2 ++ [x])) dst L_UNDEFINED (makeLayoutState final) Fd ltac:(rewrite E2; exact B1) (or_introl eq_refl)) as G3.
        pose proof (keeps_barrier (e_separate e) c2 (after_all d (l2 ++ [x])) dst L_UNDEFINED (makeLayoutState final) false) as K3.
        destruct (memoryBarrier (e_separate e) c2 (v_image dst) (v_type dst) (v_range dst) L_UNDEFINED (makeLayoutState final) false) as [c4 l4]. cbn [fst snd seq2] in *.
        destruct G3 as (A3 & B3 & C3). cbn [fst snd] in *. split.
        -- split; cbn [fst snd]; [apply legal_app; auto|]. split; [rewrite after_app; exact B3|exact (incl_tran C3 (incl_tran C1 Hr))].
        -- apply keeps_app; [exact K2|]. apply (keeps_more (eq dst)); [exact Td|exact K3].
    + cbn in HS. destruct (HS c1 i) as [X Y]. destruct (e_action e tag c1 i) as [c2 l2]. cbn [fst snd] in *. subst c2. split; [apply Up, good_neutral; assumption|].
      apply keeps_same. apply (neutral_all l2 Y d).
Qed.
(* One image attachment. *)
Lemma good_record_image e acts p a c d : (forall x, In x acts -> sound_action e F (rp_index p) (snd x)) -> F (attach_view a (rp_index p)) -> pend acts c -> right c d ->
  good c d (record_image e g p a c) /\
  keeps (fun t => t = attach_view a (rp_index p) \/ touched acts (rp_index p) (attach_view a (rp_index p)) t) d (snd (record_image e g p a c)) /\
  (has_transition a = true -> a_getImageLayout a (e_separate e) <> L_UNDEFINED ->
   view_in (after_all d (snd (record_image e g p a c))) (attach_view a (rp_index p)) (a_getImageLayout a (e_separate e))).
Proof.
  intros Ha Hv P R. unfold record_image. set (v := attach_view a (rp_index p)) in *.
  destruct (good_implicit e acts (rp_index p) Ha (length (rc_implicit c)) c d v P R) as [G0 K0]. fold (runImplicit e c (rp_index p) v) in G0, K0.
  destruct (runImplicit e c (rp_index p) v) as [c0 l0]. destruct G0 as (A0 & B0 & C0). cbn [fst snd seq2] in *.
  fold (has_transition a). set (d0 := after_all d l0) in *. set (T := fun t => t = v \/ touched acts (rp_index p) v t).
  set (X := if has_transition a then _ else _). enough (GX : good c0 d0 X /\ keeps T d0 (snd X) /\ (has_transition a = true -> a_getImageLayout a (e_separate e) <> L_UNDEFINED ->
     view_in (after_all d0 (snd X)) v (a_getImageLayout a (e_separate e)))).
  { destruct X as [cx lx]. destruct GX as ((A & B & C) & K & V). cbn [fst snd] in *. split; [|split].
    - split; cbn [fst snd]; [apply legal_app; auto|]. rewrite after_app. split; [exact B|exact (incl_tran C C0)].
    - apply keeps_app; [|exact K]. apply (keeps_more (touched acts (rp_index p) v)); [|exact K0]. intros t Ht. right. exact Ht.
    - rewrite after_app. exact V. }
  unfold X. clear X. destruct (has_transition a); [|split; [apply good_ret, B0|split; [apply keeps_same; reflexivity|discriminate]]].
  assert (C : exists c1 cur, (if isInput a then getCurrentLayoutState g c0 (v_image v) (v_type v) (v_range v) else (c0, makeLayoutState L_UNDEFINED)) = (c1, cur)
    /\ right c1 d0 /\ rc_implicit c1 = rc_implicit c0 /\ (ls_layout cur = L_UNDEFINED \/ view_in d0 v (ls_layout cur))).
  { destruct (isInput a).
    - destruct (getCurrentLayoutState g c0 (v_image v) (v_type v) (v_range v)) as [c1 s] eqn:E. exists c1, s.
      destruct (right_current c0 d0 v c1 s Hv B0 E) as (A & B & D & _). auto.
    - exists c0, (makeLayoutState L_UNDEFINED). repeat split; auto. }
  destruct C as (c1 & cur & -> & R1 & I1 & D).
  set (needed := makeLayoutState (a_getImageLayout a (e_separate e))).
  set (body := if isClearableImage a then _ else _). enough (G : good c1 d0 body /\ keeps (eq v) d0 (snd body) /\ (ls_layout needed <> L_UNDEFINED -> view_in (after_all d0 (snd body)) v (ls_layout needed))).
  { destruct body as [c2 l2]. destruct G as ((A & B & C) & K & V). split; [|split].
    - split; [exact A|]. split; [exact B|]. cbn [fst] in *. rewrite <- I1. exact C.
    - apply (keeps_more (eq v)); [intros t <-; left; reflexivity|exact K].
    - intros _. exact V. }
  unfold body, memoryBarrier_view. clear body. destruct (isClearableImage a).
  2:{ split; [apply good_barrier; auto|]. split; [apply keeps_barrier|apply barrier_in; auto]. }
  pose proof (barrier_in (e_separate e) c1 d0 v (ls_layout cur) transfer_dst_state Hv R1 D ltac:(discriminate)) as K.
  pose proof (keeps_barrier (e_separate e) c1 d0 v (ls_layout cur) transfer_dst_state false) as Kp.
  pose proof (good_barrier (e_separate e) c1 d0 v (ls_layout cur) transfer_dst_state Hv R1 D) as G1.
  destruct (memoryBarrier (e_separate e) c1 (v_image v) (v_type v) (v_range v) (ls_layout cur) transfer_dst_state false) as [c2 l2]. cbn [fst snd] in *.
  set (x := if isColourFormat (v_format v) then _ else _). assert (Ex : forall d', after d' x = d') by (intro d'; unfold x; destruct (isColourFormat _); reflexivity).
  assert (E2 : after_all d0 (l2 ++ [x]) = after_all d0 l2) by (rewrite after_app; cbn [after_all fold_left]; apply Ex).
  assert (G2 : good c1 d0 ((c2, l2) >>> emit [x])).
  { apply good_seq; [exact G1|]. cbn [fst snd]. intros _ R2. apply good_emit; [exact R2| |cbn [after_all fold_left]; apply Ex].
    split; [|exact I]. unfold x. destruct (isColourFormat _); (split; [left; reflexivity|exact K]). }
  cbn [seq2 emit] in G2 |- *. pose proof G2 as (A2 & B2 & C2). cbn [fst snd] in A2, B2, C2. rewrite E2 in B2.
  assert (Di : L_TRANSFER_DST = L_UNDEFINED \/ view_in (after_all d0 (l2 ++ [x])) v L_TRANSFER_DST) by (right; rewrite E2; exact K).
  assert (B2' : right c2 (after_all d0 (l2 ++ [x]))) by (rewrite E2; exact B2).
  pose proof (good_barrier (e_separate e) c2 (after_all d0 (l2 ++ [x])) v L_TRANSFER_DST needed Hv B2' Di) as G3.
  pose proof (keeps_barrier (e_separate e) c2 (after_all d0 (l2 ++ [x])) v L_TRANSFER_DST needed false) as K3.
  pose proof (barrier_in (e_separate e) c2 (after_all d0 (l2 ++ [x])) v L_TRANSFER_DST needed Hv B2' Di) as V3.
  destruct (memoryBarrier (e_separate e) c2 (v_image v) (v_type v) (v_range v) L_TRANSFER_DST needed false) as [c4 l4]. destruct G3 as (A3 & B3 & C3). cbn [fst snd] in *.
  split; [|split].
  - split; cbn [fst snd]; [apply legal_app; auto|]. rewrite after_app. split; [exact B3|exact (incl_tran C3 C2)].
  - apply keeps_app; [|exact K3]. intros w k S H. rewrite E2. apply Kp; assumption.
  - rewrite after_app. exact V3.
Qed.
Lemma good_record_buffer p a c d : right c d -> good c d (record_buffer p a c).
Proof.
  intro R.
  assert (N : forall c d b o s m t w f, right c d -> good c d (bufferBarrier c b o s m t w f)).
  { intros c0 d0 b o s m t w f R0. unfold bufferBarrier. destruct (orb _ _); [|apply good_ret, R0]. split; [split; [exact I|exact I]|]. split; [|apply incl_refl]. apply (right_ext c0); [reflexivity|exact R0]. }
  unfold record_buffer. destruct (andb _ _); [|apply good_ret, R]. destruct (isClearableBuffer a); [|apply N, R].
  apply good_seq; [apply good_seq; [apply N, R|]|].
  - intros _ R1. apply good_emit; [exact R1|split; exact I|reflexivity].
  - intros _ R1. apply N, R1.
Qed.
Lemma good_neutral_fun f i c d : neutral_fun f -> right c d -> good c d (f c i).
Proof. intros H R. destruct (H c i) as [A B]. destruct (f c i) as [c' l]. cbn in A, B. subst c'. apply good_neutral; assumption. Qed.

(* A whole pass. *)
Lemma images_ready e acts p c d : sound_pass e g F acts p -> pend acts c -> right c d ->
  let x := run_all (record_image e g p) (rp_images p) c in good c d x /\ ready e p (after_all d (snd x)).
Proof.
  intros (Hv & Hp & _ & _ & Ha & Ho) P R x. unfold ready, x. clear x.
  assert (HvF : forall a, In a (rp_images p) -> F (attach_view a (rp_index p))).
  { intros a Hi. apply Hv, (in_map (fun a => attach_view a (rp_index p))), Hi. }
  clear Hv. revert HvF Hp Ho. generalize (rp_images p). intro l. revert c d P R. induction l as [|a l IH]; intros c d P R HvF Hp Ho; [split; [apply good_ret, R|intros a []]|].
  rewrite run_all_cons. pose proof (HvF a (or_introl eq_refl)) as Fa.
  destruct (good_record_image e acts p a c d Ha Fa P R) as ((A1 & B1 & C1) & K1 & V1).
  destruct (record_image e g p a c) as [c1 l1]. cbn [fst snd seq2] in *.
  inversion Hp as [|? ? Pa Hp']; subst. inversion Ho as [|? ? Oa Ho']; subst. rewrite Forall_forall in Oa.
  destruct (IH c1 (after_all d l1) (pend_incl acts c c1 C1 P) B1 (fun b Hb => HvF b (or_intror Hb)) Hp' Ho') as ((A2 & B2 & C2) & V2).
  assert (K2 : keeps (fun t => exists b, In b l /\ (t = attach_view b (rp_index p) \/ touched acts (rp_index p) (attach_view b (rp_index p)) t)) (after_all d l1) (snd (run_all (record_image e g p) l c1))).
  { assert (HvF' : forall b, In b l -> F (attach_view b (rp_index p))) by (intros b Hb; apply HvF; right; exact Hb).
    pose proof (pend_incl acts c c1 C1 P) as P1. clear - HF HvF' Ha P1 B1. revert c1 P1 B1. generalize (after_all d l1). revert HvF'. induction l as [|b l IH]; intros HvF' d1 c1 P1 B1; [apply keeps_same; reflexivity|].
    rewrite run_all_cons. destruct (good_record_image e acts p b c1 d1 Ha (HvF' b (or_introl eq_refl)) P1 B1) as ((A3 & B3 & C3) & K3 & _).
    destruct (record_image e g p b c1) as [c3 l3]. cbn [fst snd seq2] in *. specialize (IH (fun x Hx => HvF' x (or_intror Hx)) (after_all d1 l3) c3 (pend_incl acts c1 c3 C3 P1) B3).
    destruct (run_all (record_image e g p) l c3) as [c4 l4]. cbn [snd] in *. apply keeps_app.
    - eapply keeps_more; [|exact K3]. intros t Ht. exists b. split; [left; reflexivity|exact Ht].
    - eapply keeps_more; [|exact IH]. intros t (b' & Hb' & Ht). exists b'. split; [right; exact Hb'|exact Ht]. }
  destruct (run_all (record_image e g p) l c1) as [c2 l2]. cbn [fst snd] in *. split.
  - split; cbn [fst snd]; [apply legal_app; auto|]. rewrite after_app. split; [exact B2|exact (incl_tran C2 C1)].
  - intros b Hb Ht Hl. rewrite after_app. destruct Hb as [<-|Hb]; [|apply V2; assumption]. apply K2; [|apply V1; assumption].
    intros t (b & Hb & [-> | Hw]); [apply (Pa b Hb)|apply (Oa b Hb t Hw)].
Qed.
Definition fine (acts : list (view * action)) (d : layouts) (x : rctx * list cmd) : Prop :=
  all_legal d (snd x) /\ right (fst x) (after_all d (snd x)) /\ pend acts (fst x).
Lemma pend_register acts p c : incl (rp_implicit p) acts -> pend acts c -> pend acts (register_all p c).
Proof.
  unfold register_all. intro H. revert c. induction (rp_implicit p) as [|[v a] l IH]; intros c P; [exact P|]. cbn [fold_left]. apply IH; [intros x Hx; apply H; right; exact Hx|].
  intros q w b Hin. cbn in Hin. apply in_app_or in Hin. destruct Hin as [Hin|[E|[]]]; [apply (P q), Hin|]. injection E as _ <- <-. apply H. left. reflexivity.
Qed.
Lemma register_known p c v : known_layout (register_all p c) v = known_layout c v.
Proof. unfold register_all. revert c. induction (rp_implicit p) as [|x l IH]; intro c; [reflexivity|]. cbn [fold_left]. rewrite IH. reflexivity. Qed.
Lemma good_recordInto e acts p c d : sound_pass e g F acts p -> incl (rp_implicit p) acts -> pend acts c -> right c d -> fine acts d (recordInto e g p c).
Proof.
  intros S Hi I0 R. pose proof S as (Hv & Hp & Hn & Hb & Ha & Ho). unfold recordInto.
  set (X := if e_enabled e (rp_id p) then _ else _). enough (GX : good c d X).
  { destruct X as [c' l]. destruct GX as (A & B & C). split; [exact A|]. cbn [fst snd] in *. split; [|apply pend_register; [exact Hi|exact (pend_incl acts c c' C I0)]].
    apply (right_ext c'); [intros v _; apply register_known|exact B]. }
  unfold X. clear X. destruct (e_enabled e (rp_id p)); [|apply good_ret, R].
  destruct (images_ready e acts p c d S I0 R) as [G1 Rd].
  assert (G2 : good c d ((c, [CBeginBlock (rp_id p); CTimerBegin (rp_id p)]) >>> run_all (record_image e g p) (rp_images p))).
  { cbn [seq2]. destruct (run_all (record_image e g p) (rp_images p) c) as [c1 l1]. destruct G1 as (A & B & C). split; [split; [exact I|split; [exact I|exact A]]|]. split; [exact B|exact C]. }
  assert (Rd2 : ready e p (after_all d (snd ((c, [CBeginBlock (rp_id p); CTimerBegin (rp_id p)]) >>> run_all (record_image e g p) (rp_images p))))).
  { cbn [seq2]. destruct (run_all (record_image e g p) (rp_images p) c) as [c1 l1]. exact Rd. }
  revert G2 Rd2. generalize ((c, [CBeginBlock (rp_id p); CTimerBegin (rp_id p)]) >>> run_all (record_image e g p) (rp_images p)). intros x1 G2 Rd2.
  assert (BB : forall c0 d0 l, pend acts c0 -> right c0 d0 -> good c0 d0 (run_all (record_buffer p) l c0) /\ after_all d0 (snd (run_all (record_buffer p) l c0)) = d0).
  { intros c0 d0 l I1 R1. split; [apply (good_run_all acts); auto; intros; apply good_record_buffer; assumption|].
    clear R1 I1. revert c0 d0. induction l as [|b l IH]; intros c0 d0; [reflexivity|]. rewrite run_all_cons.
    assert (E : forall c d, after_all d (snd (record_buffer p b c)) = d).
    { intros c2 d2. unfold record_buffer. destruct (andb _ _); [|reflexivity]. unfold bufferBarrier. destruct (isClearableBuffer b).
      - cbn [seq2]. destruct (orb _ _); cbn [seq2 emit]; destruct (orb _ _); reflexivity.
      - destruct (orb _ _); reflexivity. }
    specialize (E c0 d0). destruct (record_buffer p b c0) as [c3 l3]. cbn [seq2 snd] in *. specialize (IH c3 d0). destruct (run_all (record_buffer p) l c3) as [c4 l4]. cbn [snd] in *.
    rewrite after_app, E. exact IH. }
  assert (NN : forall c0 d0 l, (forall f, In f l -> neutral_fun f) -> right c0 d0 ->
    let x := run_all (fun f c => f c (rp_index p)) l c0 in fst x = c0 /\ Forall neutral (snd x)).
  { clear. intros c0 d0 l. revert c0. induction l as [|f l IH]; intros c0 H R; [split; [reflexivity|constructor]|]. cbn zeta. rewrite run_all_cons.
    destruct (H f (or_introl eq_refl) c0 (rp_index p)) as [A B]. destruct (f c0 (rp_index p)) as [c1 l1]. cbn [fst snd] in *. subst c1. cbn [seq2].
    destruct (IH c0 (fun f Hf => H f (or_intror Hf)) R) as [A2 B2]. destruct (run_all _ l c0) as [c2 l2]. cbn [fst snd] in *. split; [exact A2|apply Forall_app; auto]. }
  apply good_seq; [apply good_seq; [apply good_seq; [apply good_seq; [apply good_seq; [exact G2|]|]|]|]|].
  - intros I1 R1. apply BB; [exact (pend_incl acts _ _ I1 I0)|exact R1].
  - intros I1 R1. destruct (NN _ _ (rp_pre p) (fun f Hf => Hn f (or_introl Hf)) R1) as [A B]. 
    destruct (run_all _ (rp_pre p) _) as [c2 l2]. cbn [fst snd] in A, B. subst c2. apply good_neutral; assumption.
  - intros I1 R1.
    set (y := x1 >>> run_all (record_buffer p) (rp_buffers p) >>> run_all (fun (f : rctx -> nat -> rctx * list cmd) c => f c (rp_index p)) (rp_pre p)) in *.
    assert (Rdy : ready e p (after_all d (snd y))).
    { destruct x1 as [c1 l1]. destruct G2 as (A1 & B1 & C1). cbn [fst snd] in *. unfold y. cbn [seq2].
      destruct (BB c1 (after_all d l1) (rp_buffers p)) as [(X1 & X2 & X3) X4]; [exact (pend_incl acts _ _ C1 I0)|exact B1|].
      destruct (run_all (record_buffer p) (rp_buffers p) c1) as [c2 l2]. cbn [fst snd] in *.
      rewrite X4 in X2.
      destruct (NN c2 (after_all d l1) (rp_pre p) (fun f Hf => Hn f (or_introl Hf)) X2) as [A B].
      cbn [seq2]. destruct (run_all _ (rp_pre p) c2) as [c3 l3]. cbn [fst snd] in *. rewrite !after_app, X4, (proj2 (neutral_all l3 B _)). exact Rd2. }
    specialize (Hb (fst y) (after_all d (snd y)) R1 Rdy). destruct (rp_record p (fst y) (rp_index p)) as [c3 l3].
    destruct Hb as (A & B & C). split; [exact A|]. split; [exact B|exact C].
  - intros I1 R1. destruct (NN _ _ (rp_post p) (fun f Hf => Hn f (or_intror Hf)) R1) as [A B].
    destruct (run_all _ (rp_post p) _) as [c2 l2]. cbn [fst snd] in A, B. subst c2. apply good_neutral; assumption.
  - intros I1 R1. apply good_emit; [exact R1|repeat split|reflexivity].
Qed.
Lemma prepare_right e p rest c d : right c d -> right (prepare e g p rest c) d.
Proof. intro R. apply (right_ext c); [|exact R]. intros v _. unfold prepare. destruct rest; reflexivity. Qed.
Lemma prepare_implicit e p rest c : rc_implicit (prepare e g p rest c) = rc_implicit c.
Proof. unfold prepare. destruct rest; reflexivity. Qed.
Lemma good_loop e acts passes : forall c d, (forall p, In p passes -> sound_pass e g F acts p /\ incl (rp_implicit p) acts) -> pend acts c -> right c d ->
  fine acts d (fst (record_loop e g passes c)).
Proof.
  induction passes as [|p rest IH]; intros c d H I0 R; [split; [exact I|split; assumption]|]. cbn [record_loop].
  destruct (H p (or_introl eq_refl)) as [Sp Ip].
  assert (P1 : pend acts (prepare e g p rest c)) by (unfold pend; rewrite prepare_implicit; exact I0).
  pose proof (good_recordInto e acts p (prepare e g p rest c) d Sp Ip P1 (prepare_right e p rest c d R)) as G.
  destruct (recordInto e g p (prepare e g p rest c)) as [c2 l1]. destruct G as (A & B & C). cbn [fst snd] in *.
  specialize (IH c2 (after_all d l1) (fun q Hq => H q (or_intror Hq)) C B).
  destruct (record_loop e g rest c2) as [[c3 l2] tr]. destruct IH as (A2 & B2 & C2). unfold fine. cbn [fst snd] in *.
  split; [apply legal_app; auto|]. rewrite after_app. split; [exact B2|exact C2].
Qed.
Lemma sound_all e passes : sound_passes e g F passes -> forall p, In p passes -> sound_pass e g F (flat_map rp_implicit passes) p /\ incl (rp_implicit p) (flat_map rp_implicit passes).
Proof. intros H p Hp. split; [apply H, Hp|]. intros x Hx. apply in_flat_map. exists p. auto. Qed.
End Regions.
