From Verif Require Import Spec_Run Proof_Layout Proof_Record.
From Coq Require Import Sorted Lia PeanoNat.
Local Open Scope N_scope.

(* ================= pipeline states are kept by recordInto ================= *)
Definition same3 (c c' : rctx) : Prop :=
  rc_prevState c' = rc_prevState c /\ rc_currState c' = rc_currState c /\ rc_nextState c' = rc_nextState c.
Lemma same3_refl c : same3 c c. Proof. repeat split. Qed.
Lemma same3_trans a b c : same3 a b -> same3 b c -> same3 a c.
Proof. unfold same3. intros (A & B & C) (D & E & F). repeat split; congruence. Qed.
Lemma same3_seq c x f : same3 c (fst x) -> (forall c', same3 c c' -> same3 c (fst (f c'))) -> same3 c (fst (x >>> f)).
Proof.
  destruct x as [c1 l1]. simpl. intros H1 H2. unfold seq2. specialize (H2 c1 H1). destruct (f c1). exact H2.
Qed.
Lemma same3_run_all {A} (f : A -> rctx -> rctx * list cmd) l c :
  (forall a c', In a l -> same3 c' (fst (f a c'))) -> same3 c (fst (run_all f l c)).
Proof.
  revert c. induction l as [|a l IH]; intros c H; [apply same3_refl|].
  rewrite run_all_cons. apply same3_seq; [apply H; left; reflexivity|].
  intros c' Hc. eapply same3_trans; [exact Hc|]. apply IH. intros; apply H; right; assumption.
Qed.
Lemma same3_barrier sep c im vt r i w f : same3 c (fst (memoryBarrier sep c im vt r i w f)).
Proof. unfold memoryBarrier. destruct (orb _ _); repeat split. Qed.
Lemma same3_bbarrier c b o s i1 i2 w f : same3 c (fst (bufferBarrier c b o s i1 i2 w f)).
Proof. unfold bufferBarrier. destruct (orb _ _); repeat split. Qed.
Lemma same3_to e c v l : same3 c (fst (barrier_to e c v l)).
Proof. apply same3_barrier. Qed.
Lemma same3_final e c v f : same3 c (fst (final_barrier e c v f)).
Proof. unfold final_barrier. destruct (N.eqb _ _); [repeat split|apply same3_barrier]. Qed.
Lemma same3_implicit fuel : forall e c i v, env_keeps_states e -> same3 c (fst (runImplicit_fuel fuel e c i v)).
Proof.
  induction fuel as [|fuel IH]; intros e c i v He; simpl; destruct (take_first _ _) as [[[p a] rest]|]; try apply same3_refl.
  - destruct (e_enabled e p); repeat split.
  - destruct (e_enabled e p); [repeat split|].
    assert (H0 : same3 c (set_implicit c rest)) by repeat split.
    destruct a as [src dst w h final|src dst [sx sy] [sw sh] [dx dy] [dw dh] filter final|views final|tag].
    + repeat apply same3_seq; try (intros c' Hc; eapply same3_trans; [exact Hc|]).
      * eapply same3_trans; [exact H0|apply IH; exact He].
      * apply same3_to.
      * apply same3_to.
      * apply same3_refl.
      * apply same3_final.
    + repeat apply same3_seq; try (intros c' Hc; eapply same3_trans; [exact Hc|]).
      * eapply same3_trans; [exact H0|apply IH; exact He].
      * apply same3_to.
      * apply same3_to.
      * apply same3_refl.
      * apply same3_final.
    + repeat apply same3_seq; try (intros c' Hc; eapply same3_trans; [exact Hc|]).
      * eapply same3_trans; [exact H0|apply same3_to].
      * apply same3_refl.
      * apply same3_final.
    + eapply same3_trans; [exact H0|]. apply He.
Qed.
Lemma same3_current g c im vt r : same3 c (fst (getCurrentLayoutState g c im vt r)).
Proof.
  unfold getCurrentLayoutState. destruct (negb _); [repeat split|]. destruct (negb _); [repeat split|]. destruct (negb _); repeat split.
Qed.
Lemma same3_record_image e g p a c : env_keeps_states e -> same3 c (fst (record_image e g p a c)).
Proof.
  intro He. unfold record_image. apply same3_seq; [apply same3_implicit; exact He|]. intros c' Hc.
  destruct (andb _ _); [|exact Hc].
  destruct (isInput a) eqn:Ein.
  - pose proof (same3_current g c' (v_image (attach_view a (rp_index p))) (v_type (attach_view a (rp_index p))) (v_range (attach_view a (rp_index p)))) as Hcur.
    destruct (getCurrentLayoutState g c' _ _ _) as [c2 cur]. simpl in Hcur.
    eapply same3_trans; [exact Hc|]. eapply same3_trans; [exact Hcur|].
    destruct (isClearableImage a).
    + repeat apply same3_seq; try (intros c'' Hc''; eapply same3_trans; [exact Hc''|]); first [apply same3_barrier|apply same3_refl].
    + apply same3_barrier.
  - eapply same3_trans; [exact Hc|]. destruct (isClearableImage a).
    + repeat apply same3_seq; try (intros c'' Hc''; eapply same3_trans; [exact Hc''|]); first [apply same3_barrier|apply same3_refl].
    + apply same3_barrier.
Qed.
Lemma same3_record_buffer p a c : same3 c (fst (record_buffer p a c)).
Proof.
  unfold record_buffer. destruct (andb _ _); [|apply same3_refl]. destruct (isClearableBuffer a).
  - repeat apply same3_seq; try (intros c'' Hc''; eapply same3_trans; [exact Hc''|]); first [apply same3_bbarrier|apply same3_refl].
  - apply same3_bbarrier.
Qed.
Lemma same3_register p c : same3 c (register_all p c).
Proof.
  unfold register_all. revert c. induction (rp_implicit p) as [|va l IH]; intro c; simpl; [apply same3_refl|].
  eapply same3_trans; [|apply IH]. repeat split.
Qed.
Lemma same3_recordInto e g p c : env_keeps_states e -> pass_keeps_states p -> same3 c (fst (recordInto e g p c)).
Proof.
  intros He (Hr & Hpre & Hpost). unfold recordInto. destruct (e_enabled e (rp_id p)).
  - match goal with |- context [let '(x, y) := ?X in _] => assert (K : same3 c (fst X)) end.
    { repeat apply same3_seq; try (intros c' Hc; eapply same3_trans; [exact Hc|]).
      - apply same3_refl.
      - apply same3_run_all. intros. apply same3_record_image. exact He.
      - apply same3_run_all. intros. apply same3_record_buffer.
      - apply same3_run_all. intros f c1 Hf. rewrite Forall_forall in Hpre. apply Hpre; exact Hf.
      - apply Hr.
      - apply same3_run_all. intros f c1 Hf. rewrite Forall_forall in Hpost. apply Hpost; exact Hf.
      - apply same3_refl. }
    destruct (_ >>> _) as [c1 l1]. simpl in K |- *. eapply same3_trans; [exact K|apply same3_register].
  - simpl. apply same3_register.
Qed.

(* ================= the loop ================= *)
Definition next_enabled (e : env) (l : list rpass) : option rpass := find (fun p => e_enabled e (rp_id p)) l.

Lemma getNextState_spec e s l : getNextState e s l = match next_enabled e l with Some q => rp_state q | None => s end.
Proof. unfold next_enabled. induction l as [|p l IH]; simpl; [reflexivity|]. destruct (e_enabled e (rp_id p)); auto. Qed.

Lemma prepare_states e g p rest c :
  rc_prevState (prepare e g p rest c) = rc_currState c /\
  rc_currState (prepare e g p rest c) = rc_nextState c /\
  rc_nextState (prepare e g p rest c) = match next_enabled e rest with Some q => rp_state q | None => rp_state p end.
Proof.
  unfold prepare. destruct rest as [|q rest]; [repeat split|]. cbn [setNextPipelineState rc_prevState rc_currState rc_nextState].
  split; [reflexivity|]. split; [reflexivity|]. apply getNextState_spec.
Qed.

Lemma trace_length e g passes : forall c, length (snd (record_loop e g passes c)) = length passes.
Proof.
  induction passes as [|p rest IH]; intro c; simpl; [reflexivity|].
  destruct (recordInto e g p (prepare e g p rest c)) as [c2 l1]. specialize (IH c2).
  destruct (record_loop e g rest c2) as [[c3 l2] tr]. simpl in *. lia.
Qed.

(* each entry of the trace comes from [prepare], whatever the callbacks do *)
Lemma trace_entry e g passes : forall c i p c1 idx,
  nth_error (snd (record_loop e g passes c)) i = Some (p, c1, idx) ->
  nth_error passes i = Some p /\ idx = recorded_index e p /\
  exists c0, c1 = prepare e g p (skipn (S i) passes) c0.
Proof.
  induction passes as [|p rest IH]; intros c i p' c1 idx H; simpl in H; [destruct i; discriminate|].
  destruct (recordInto e g p (prepare e g p rest c)) as [c2 l1]. specialize (IH c2).
  destruct (record_loop e g rest c2) as [[c3 l2] tr]. simpl in *. destruct i as [|i]; simpl in H.
  - injection H as <- <- <-. split; [reflexivity|]. split; [reflexivity|]. exists c. reflexivity.
  - destruct (IH _ _ _ _ H) as (A & B & c0 & C). split; [exact A|]. split; [exact B|]. exists c0. exact C.
Qed.

(* the states of consecutive entries *)
Definition entry_ctx (tr : list (rpass * rctx * N)) (i : nat) : option rctx := option_map (fun x => snd (fst x)) (nth_error tr i).

Lemma trace_chain e g passes : env_keeps_states e -> Forall pass_keeps_states passes -> forall c,
  (forall c0, entry_ctx (snd (record_loop e g passes c)) 0 = Some c0 ->
     rc_prevState c0 = rc_currState c /\ rc_currState c0 = rc_nextState c) /\
  (forall i c0 c1, entry_ctx (snd (record_loop e g passes c)) i = Some c0 -> entry_ctx (snd (record_loop e g passes c)) (S i) = Some c1 ->
     rc_prevState c1 = rc_currState c0 /\ rc_currState c1 = rc_nextState c0) /\
  (forall c0, entry_ctx (snd (record_loop e g passes c)) (pred (length passes)) = Some c0 -> same3 c0 (fst (fst (record_loop e g passes c)))).
Proof.
  intros He Hp. induction Hp as [|p rest Hp1 Hp2 IH]; intro c.
  - simpl. repeat split; intros; try discriminate; destruct i; discriminate.
  - cbn [record_loop].
    pose proof (same3_recordInto e g p (prepare e g p rest c) He Hp1) as Hs.
    destruct (prepare_states e g p rest c) as (P1 & P2 & P3).
    destruct (recordInto e g p (prepare e g p rest c)) as [c2 l1]. simpl in Hs.
    specialize (IH c2). destruct IH as (I0 & I1 & I2).
    pose proof (trace_length e g rest c2) as Hlen.
    destruct (record_loop e g rest c2) as [[c3 l2] tr] eqn:Eloop. simpl in *.
    split; [|split].
    + unfold entry_ctx. simpl. intros c0 [= <-]. auto.
    + intros [|i] c0 c1; unfold entry_ctx at 1; simpl.
      * intros [= <-] H. unfold entry_ctx in H. simpl in H. destruct (I0 c1) as [A B]; [exact H|].
        destruct Hs as (S1 & S2 & S3). split; congruence.
      * intros H1 H2. apply (I1 i); [exact H1|exact H2].
    + intros c0. destruct rest as [|q rest].
      * simpl in Eloop. injection Eloop as <- <- <-. unfold entry_ctx. simpl. intros [= <-]. exact Hs.
      * unfold entry_ctx. simpl. intro H. apply I2. exact H.
Qed.

Lemma trace_current e g passes c i p c1 idx : env_keeps_states e -> Forall pass_keeps_states passes ->
  (forall p0, nth_error passes 0 = Some p0 -> rc_nextState c = rp_state p0) ->
  nth_error (snd (record_loop e g passes c)) i = Some (p, c1, idx) ->
  e_enabled e (rp_id p) = true \/ i = O -> rc_currState c1 = rp_state p.
Proof.
  intros He Hp H0 Hi Hen.
  destruct (trace_chain e g passes He Hp c) as (T0 & T1 & _).
  destruct (trace_entry e g passes c i p c1 idx Hi) as (A & _ & _).
  destruct i as [|i].
  - destruct (T0 c1) as [_ E]; [unfold entry_ctx; rewrite Hi; reflexivity|]. rewrite E. apply H0. exact A.
  - destruct Hen as [Hen|]; [|discriminate].
    destruct (nth_error (snd (record_loop e g passes c)) i) as [[[p' c'] idx']|] eqn:Ei.
    + destruct (T1 i c' c1) as [_ E]; [unfold entry_ctx; rewrite Ei; reflexivity|unfold entry_ctx; rewrite Hi; reflexivity|].
      rewrite E. destruct (trace_entry e g passes c i p' c' idx' Ei) as (_ & _ & c0 & ->).
      destruct (prepare_states e g p' (skipn (S i) passes) c0) as (_ & _ & P3). rewrite P3.
      assert (K : skipn (S i) passes = p :: skipn (S (S i)) passes).
      { clear -A. revert i A. induction passes as [|x l IH]; intros i A; [destruct i; discriminate|].
        destruct i as [|i]; simpl in A |- *; [destruct l; simpl in A; [discriminate|injection A as ->; reflexivity]|].
        apply (IH i). exact A. }
      rewrite K. unfold next_enabled. simpl. rewrite Hen. reflexivity.
    + exfalso. apply nth_error_None in Ei. assert (Q : nth_error (snd (record_loop e g passes c)) (S i) <> None) by congruence.
      apply nth_error_Some in Q. lia.
Qed.
