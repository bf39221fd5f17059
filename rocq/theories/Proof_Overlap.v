(* Views that overlap: what is known of each subresource. *)
From Verif Require Import Spec_Overlap Proof_Layout Proof_Record Proof_Run2 Proof_Run3 Proof_Device.
Local Open Scope N_scope.

Definition lay (o : option lstate) : N := match o with Some s => ls_layout s | None => L_UNDEFINED end.
Lemma never_tracked h i layer mip s : never_undefined h -> htracked h i layer mip = Some s -> ls_layout s <> L_UNDEFINED.
Proof.
  intros H. unfold htracked, tracked. destruct (mfind i h) as [m|] eqn:E1; [|discriminate]. destruct (mfind layer m) as [l|] eqn:E2; [|discriminate]. intro E3. apply (H i m layer l mip s E1 E2 E3).
Qed.
Lemma never_of_tracked h : (forall i layer mip s, htracked h i layer mip = Some s -> ls_layout s <> L_UNDEFINED) -> never_undefined h.
Proof. intros H i m layer l mip s E1 E2 E3. apply (H i layer mip s). unfold htracked, tracked. rewrite E1, E2. exact E3. Qed.

(* The layout of a range is that of one of its tracked subresources, or nothing is tracked in it. *)
Lemma get_range h im vt r : vt <> VT_3D -> valid_range r ->
  (exists layer mip s, in_range r layer mip /\ htracked h (i_id im) layer mip = Some s /\ ls_layout s = ls_layout (getLayoutState h im vt r)) \/
  ((forall layer mip, in_range r layer mip -> htracked h (i_id im) layer mip = None) /\ ls_layout (getLayoutState h im vt r) = L_UNDEFINED).
Proof.
  intros Hv Hr. unfold getLayoutState, htracked. rewrite virtual_not3d by exact Hv. destruct (mfind (i_id im) h) as [m|]; [|right; auto].
  pose proof (get_is_summary m r (valid_nowrap r Hr)) as S. unfold is_summary in S. destruct (tracked_list m r) as [|x l] eqn:E.
  - right. split; [|rewrite S; reflexivity]. intros layer mip H. destruct (tracked m layer mip) as [s|] eqn:T; [|reflexivity]. exfalso.
    assert (X : In s (tracked_list m r)) by (unfold tracked_list; apply in_flat_map; exists (layer, mip); split; [apply in_subresources, H|cbn [fst snd]; rewrite T; left; reflexivity]).
    rewrite E in X. destruct X.
  - left. destruct S as (_ & Hs & _). destruct (filter _ _) as [|z f] eqn:Ef; [congruence|].
    assert (Hz : In z (filter (fun x => N.eqb (ls_layout x) (ls_layout (getSubresourceRangeLayout m r))) (x :: l))) by (rewrite Ef; left; reflexivity).
    apply filter_In in Hz. destruct Hz as [Hz1 Hz2]. apply N.eqb_eq in Hz2. rewrite <- E in Hz1. unfold tracked_list in Hz1. apply in_flat_map in Hz1.
    destruct Hz1 as ([layer mip] & A & B). cbn [fst snd] in B. apply in_subresources in A. destruct (tracked m layer mip) as [w|] eqn:T; [|destruct B]. destruct B as [->|[]]. exists layer, mip, z. auto.
Qed.
Lemma get_part h im layer mip : layer < 2 ^ 32 -> mip < 2 ^ 32 -> part_known h im layer mip = lay (htracked h (i_id im) layer mip).
Proof.
  intros Hl Hm. unfold part_known. set (r := v_range (part im layer mip)). assert (Hr : valid_range r) by (unfold valid_range; cbn; lia).
  assert (In1 : forall l m, in_range r l m <-> l = layer /\ m = mip) by (intros l m; unfold in_range; cbn; lia).
  destruct (get_range h im VT_2D_ARRAY r ltac:(discriminate) Hr) as [(l & m & s & A & B & <-)|[A ->]].
  - apply In1 in A. destruct A as [-> ->]. rewrite B. reflexivity.
  - rewrite A by (apply In1; auto). reflexivity.
Qed.
Definition first_known (a b c : N) : N := if N.eqb a L_UNDEFINED then if N.eqb b L_UNDEFINED then c else b else a.
Lemma told_spec g c im layer mip : layer < 2 ^ 32 -> mip < 2 ^ 32 ->
  told g c im layer mip = first_known (lay (htracked (rc_images c) (i_id im) layer mip)) (lay (htracked (g_inputs g) (i_id im) layer mip)) (lay (htracked (rc_images (g_final g)) (i_id im) layer mip)).
Proof.
  intros Hl Hm. unfold told. rewrite said_spec. unfold known_layout, rc_getLayoutState. change (v_image (part im layer mip)) with im. change (v_type (part im layer mip)) with VT_2D_ARRAY.
  change (ls_layout (getLayoutState (rc_images c) im VT_2D_ARRAY (v_range (part im layer mip)))) with (part_known (rc_images c) im layer mip).
  change (ls_layout (getLayoutState (g_inputs g) im VT_2D_ARRAY (v_range (part im layer mip)))) with (part_known (g_inputs g) im layer mip).
  change (ls_layout (getLayoutState (rc_images (g_final g)) im VT_2D_ARRAY (v_range (part im layer mip)))) with (part_known (rc_images (g_final g)) im layer mip).
  rewrite !get_part by assumption. reflexivity.
Qed.
Lemma in_bounds r layer mip : valid_range r -> in_range r layer mip -> layer < 2 ^ 32 /\ mip < 2 ^ 32.
Proof. unfold valid_range, in_range. lia. Qed.
Lemma told_ext g c c' im layer mip : layer < 2 ^ 32 -> mip < 2 ^ 32 -> htracked (rc_images c') (i_id im) layer mip = htracked (rc_images c) (i_id im) layer mip ->
  told g c' im layer mip = told g c im layer mip.
Proof. intros Hl Hm E. rewrite !told_spec by assumption. rewrite E. reflexivity. Qed.
Lemma set_tracked c v s i layer mip : view_ok v ->
  htracked (rc_images (rc_setLayoutState c (v_image v) (v_type v) (v_range v) s)) i layer mip =
  if andb (N.eqb (i_id (v_image v)) i) (in_rangeb (v_range v) layer mip) then Some s else htracked (rc_images c) i layer mip.
Proof. intros [Hr Ht]. apply (set_subresource c (v_image v) (v_type v) (v_range v) s i layer mip Ht Hr). Qed.
Lemma never_set c v s : view_ok v -> ls_layout s <> L_UNDEFINED -> never_undefined (rc_images c) -> never_undefined (rc_images (rc_setLayoutState c (v_image v) (v_type v) (v_range v) s)).
Proof.
  intros Hv Hs H. apply never_of_tracked. intros i layer mip s'. rewrite set_tracked by exact Hv. destruct (andb _ _); [intro E; injection E as <-; exact Hs|apply never_tracked, H].
Qed.

Section Parts.
Context (g : rgraph) (V : view -> Prop) (HV : forall v, V v -> view_ok v) (HI : never_undefined (g_inputs g)).
Definition fair_ctx (c : rctx) (d : layouts) : Prop := parts_true g V c d /\ never_undefined (rc_images c) /\ rc_implicit c = [].

Lemma V_bounds v layer mip : V v -> in_range (v_range v) layer mip -> layer < 2 ^ 32 /\ mip < 2 ^ 32.
Proof. intros Hv H. apply (in_bounds (v_range v)); [apply HV, Hv|exact H]. Qed.
Lemma part_real c d v layer mip s : parts_true g V c d -> never_undefined (rc_images c) -> V v -> in_range (v_range v) layer mip ->
  htracked (rc_images c) (i_id (v_image v)) layer mip = Some s -> d (i_id (v_image v)) layer mip = ls_layout s.
Proof.
  intros P C Hv H E. destruct (V_bounds v layer mip Hv H) as [Hl Hm]. pose proof (never_tracked _ _ _ _ _ C E) as U.
  assert (T : told g c (v_image v) layer mip = ls_layout s).
  { rewrite told_spec by assumption. rewrite E. cbn [lay]. unfold first_known. destruct (N.eqb_spec (ls_layout s) L_UNDEFINED); [contradiction|reflexivity]. }
  destruct (P v layer mip Hv H) as [Q|Q]; [|congruence]. rewrite T in Q. contradiction.
Qed.
(* What the recording knows of a view in one layout. *)
Lemma known_real c d v k : parts_true g V c d -> never_undefined (rc_images c) -> V v -> view_in d v k -> known_layout c v = L_UNDEFINED \/ known_layout c v = k.
Proof.
  intros P C Hv H. unfold known_layout, rc_getLayoutState. destruct (HV v Hv) as [Hr Ht].
  destruct (get_range (rc_images c) (v_image v) (v_type v) (v_range v) Ht Hr) as [(l & m & s & A & B & <-)|[_ ->]]; [right|left; reflexivity].
  rewrite <- (part_real c d v l m s P C Hv A B). apply H, A.
Qed.
Lemma said_real c d v k : parts_true g V c d -> never_undefined (rc_images c) -> V v -> view_in d v k -> said g c v = L_UNDEFINED \/ said g c v = k.
Proof.
  intros P C Hv H. rewrite said_spec. destruct (HV v Hv) as [Hr Ht].
  destruct (N.eqb_spec (known_layout c v) L_UNDEFINED) as [K|K]; [|destruct (known_real c d v k P C Hv H); [contradiction|auto]].
  assert (Nc : forall layer mip, in_range (v_range v) layer mip -> lay (htracked (rc_images c) (i_id (v_image v)) layer mip) = L_UNDEFINED).
  { intros layer mip R. destruct (htracked (rc_images c) (i_id (v_image v)) layer mip) as [s|] eqn:E; [|reflexivity]. exfalso.
    unfold known_layout, rc_getLayoutState in K. destruct (get_range (rc_images c) (v_image v) (v_type v) (v_range v) Ht Hr) as [(l & m & s' & A & B & D)|[A _]]; [|rewrite A in E by exact R; discriminate].
    rewrite K in D. apply (never_tracked _ _ _ _ _ C B D). }
  destruct (N.eqb_spec (ls_layout (getLayoutState (g_inputs g) (v_image v) (v_type v) (v_range v))) L_UNDEFINED) as [J|J].
  - assert (Ni : forall layer mip, in_range (v_range v) layer mip -> lay (htracked (g_inputs g) (i_id (v_image v)) layer mip) = L_UNDEFINED).
    { intros layer mip R. destruct (htracked (g_inputs g) (i_id (v_image v)) layer mip) as [s|] eqn:E; [|reflexivity]. exfalso.
      destruct (get_range (g_inputs g) (v_image v) (v_type v) (v_range v) Ht Hr) as [(l & m & s' & A & B & D)|[A _]]; [|rewrite A in E by exact R; discriminate].
      rewrite J in D. apply (never_tracked _ _ _ _ _ HI B D). }
    unfold rc_getLayoutState. destruct (get_range (rc_images (g_final g)) (v_image v) (v_type v) (v_range v) Ht Hr) as [(l & m & s & A & B & <-)|[_ ->]]; [|left; reflexivity].
    destruct (V_bounds v l m Hv A) as [Hl Hm]. assert (T : told g c (v_image v) l m = ls_layout s) by (rewrite told_spec by assumption; rewrite (Nc l m A), (Ni l m A), B; reflexivity).
    destruct (P v l m Hv A) as [Q|Q]; rewrite T in Q; [left; exact Q|right]. rewrite <- Q. apply H, A.
  - destruct (get_range (g_inputs g) (v_image v) (v_type v) (v_range v) Ht Hr) as [(l & m & s & A & B & D)|[_ D]]; [|contradiction]. rewrite <- D in J |- *.
    destruct (V_bounds v l m Hv A) as [Hl Hm].
    assert (T : told g c (v_image v) l m = ls_layout s).
    { rewrite told_spec by assumption. rewrite (Nc l m A), B. cbn [lay]. unfold first_known. rewrite N.eqb_refl. destruct (N.eqb_spec (ls_layout s) L_UNDEFINED); [contradiction|reflexivity]. }
    destruct (P v l m Hv A) as [Q|Q]; rewrite T in Q; [contradiction|right]. rewrite <- Q. apply H, A.
Qed.

Lemma parts_ext c c' d : (forall i layer mip, htracked (rc_images c') i layer mip = htracked (rc_images c) i layer mip) -> parts_true g V c d -> parts_true g V c' d.
Proof. intros E P v layer mip Hv H. destruct (V_bounds v layer mip Hv H) as [Hl Hm]. rewrite (told_ext g c c') by auto. apply P; assumption. Qed.
Lemma parts_same c d d' : (forall i layer mip, d' i layer mip = d i layer mip) -> parts_true g V c d -> parts_true g V c d'.
Proof. intros E P v layer mip Hv H. rewrite E. apply P; assumption. Qed.
(* The states of some subresources and their real layouts are changed together. *)
Lemma parts_set c c' d d' : (forall i layer mip, (htracked (rc_images c') i layer mip = htracked (rc_images c) i layer mip /\ d' i layer mip = d i layer mip) \/
    exists s, htracked (rc_images c') i layer mip = Some s /\ ls_layout s <> L_UNDEFINED /\ d' i layer mip = ls_layout s) ->
  parts_true g V c d -> parts_true g V c' d'.
Proof.
  intros E P v layer mip Hv H. destruct (V_bounds v layer mip Hv H) as [Hl Hm]. destruct (E (i_id (v_image v)) layer mip) as [[E1 E2]|(s & E1 & U & E2)].
  - rewrite E2, (told_ext g c c') by auto. apply P; assumption.
  - right. rewrite told_spec by assumption. rewrite E1, E2. cbn [lay]. unfold first_known. destruct (N.eqb_spec (ls_layout s) L_UNDEFINED); [contradiction|reflexivity].
Qed.
Lemma fair_set c d v s d' : V v -> ls_layout s <> L_UNDEFINED ->
  (forall i layer mip, d' i layer mip = put d (i_id (v_image v)) (v_range v) (ls_layout s) i layer mip) -> fair_ctx c d ->
  fair_ctx (rc_setLayoutState c (v_image v) (v_type v) (v_range v) s) d'.
Proof.
  intros Hv Hs Hd (P & C & I0). pose proof (HV v Hv) as Ok. split; [|split; [apply never_set; assumption|exact I0]]. apply (parts_set c _ d); [|exact P].
  intros i layer mip. rewrite set_tracked by exact Ok. rewrite Hd. unfold put. destruct (andb _ _); [right; exists s; auto|left; auto].
Qed.
Lemma put_same d v k : view_in d v k -> forall i layer mip, put d (i_id (v_image v)) (v_range v) k i layer mip = d i layer mip.
Proof.
  intros H i layer mip. unfold put. destruct (N.eqb_spec (i_id (v_image v)) i) as [<-|E]; cbn [andb]; [|reflexivity]. destruct (in_rangeb (v_range v) layer mip) eqn:R; [|reflexivity].
  apply in_rangeb_spec in R. symmetry. apply H, R.
Qed.
(* Asking for the layout of a view. *)
Lemma fair_current c d v c' s k : V v -> fair_ctx c d -> view_in d v k -> getCurrentLayoutState g c (v_image v) (v_type v) (v_range v) = (c', s) ->
  fair_ctx c' d /\ (ls_layout s = L_UNDEFINED \/ ls_layout s = k).
Proof.
  intros Hv F H E. destruct F as (P & C & I0). assert (T : ls_layout s = said g c v) by (unfold said; rewrite E; reflexivity).
  assert (D : ls_layout s = L_UNDEFINED \/ ls_layout s = k) by (rewrite T; apply (said_real c d); assumption). split; [|exact D].
  assert (St : ls_layout s <> L_UNDEFINED -> fair_ctx (rc_setLayoutState c (v_image v) (v_type v) (v_range v) s) d).
  { intro U. destruct D as [D|D]; [contradiction|]. apply (fair_set c d); [exact Hv|exact U| |exact (conj P (conj C I0))]. intros i layer mip. symmetry. apply put_same. rewrite D. exact H. }
  unfold getCurrentLayoutState in E.
  destruct (negb (N.eqb (ls_layout (rc_getLayoutState c (v_image v) (v_type v) (v_range v))) L_UNDEFINED)); [injection E as <- <-; exact (conj P (conj C I0))|].
  destruct (N.eqb_spec (ls_layout (getLayoutState (g_inputs g) (v_image v) (v_type v) (v_range v))) L_UNDEFINED) as [E1|E1]; cbn [negb] in E.
  2: { injection E as <- <-. apply St, E1. }
  destruct (N.eqb_spec (ls_layout (rc_getLayoutState (g_final g) (v_image v) (v_type v) (v_range v))) L_UNDEFINED) as [E2|E2]; cbn [negb] in E.
  2: { injection E as <- <-. apply St, E2. }
  injection E as <- <-. exact (conj P (conj C I0)).
Qed.

(* A barrier on a view in one layout. *)
Lemma adapt_put sep f d im r k i layer mip : put d im (adaptRange sep f r) k i layer mip = put d im r k i layer mip.
Proof. unfold put. destruct (adapt_fields sep f r) as (A & B & C & D). unfold in_rangeb. rewrite A, B, C, D. reflexivity. Qed.
Lemma fair_barrier sep c d v initial wanted k : V v -> fair_ctx c d -> view_in d v k -> initial = L_UNDEFINED \/ initial = k -> ls_layout wanted <> L_UNDEFINED ->
  let x := memoryBarrier sep c (v_image v) (v_type v) (v_range v) initial wanted false in
  all_legal d (snd x) /\ (forall i layer mip, after_all d (snd x) i layer mip = put d (i_id (v_image v)) (v_range v) (ls_layout wanted) i layer mip) /\
  fair_ctx (fst x) (after_all d (snd x)).
Proof.
  intros Hv F H Hi Hw. assert (K : ls_layout (known_state c (v_image v) (v_type v) (v_range v) initial) = L_UNDEFINED \/ ls_layout (known_state c (v_image v) (v_type v) (v_range v) initial) = k).
  { unfold known_state. fold (known_layout c v). destruct (N.eqb_spec (known_layout c v) L_UNDEFINED) as [E|E]; [exact Hi|]. apply (known_real c d); try assumption; apply F. }
  cbv zeta. destruct (barrier_cases sep c (v_image v) (v_type v) (v_range v) initial wanted false) as [[Hn ->]|[Hn ->]]; cbn [fst snd all_legal legal after_all fold_left after].
  - assert (E : forall i layer mip, put d (i_id (v_image v)) (adaptRange sep (i_format (v_image v)) (v_range v)) (ls_layout wanted) i layer mip =
                  put d (i_id (v_image v)) (v_range v) (ls_layout wanted) i layer mip) by (intros; apply adapt_put).
    split; [|split; [exact E|apply (fair_set c d); assumption]].
    split; [|exact I]. split; [|exact Hw]. destruct K as [K|K]; [left; exact K|right]. rewrite K. intros layer mip R. apply adapt_in_range in R. apply H, R.
  - split; [exact I|]. split; [|exact F]. intros i layer mip. symmetry. apply put_same.
    destruct (N.eq_dec (ls_layout (known_state c (v_image v) (v_type v) (v_range v) initial)) (ls_layout wanted)) as [E|E]; [|exfalso; apply Hn; right; auto].
    destruct K as [K|K]; rewrite K in E; [congruence|]. rewrite <- E. exact H.
Qed.
End Parts.
