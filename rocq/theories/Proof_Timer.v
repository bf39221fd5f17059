From Verif Require Import Spec_Timer.
From Coq Require Import Lia ZifyBool ZifyNat ZifyN.
Local Open Scope N_scope.

(* the two offsets of a timer are base and base + 2, in some order *)
Definition offsets_ok (base : N) (t : timer) : Prop :=
  (q_offset (t_front t) = base /\ q_offset (t_back t) = base + 2) \/
  (q_offset (t_front t) = base + 2 /\ q_offset (t_back t) = base).

Lemma u32_small x : x < 2 ^ 32 -> u32 x = x.
Proof. intro. unfold u32. apply N.mod_small. exact H. Qed.

Lemma op_offsets base t o : offsets_ok base t -> offsets_ok base (fst (timer_op t o)).
Proof.
  unfold offsets_ok. destruct o; simpl; intro H.
  - intuition.
  - exact H.
  - exact H.
  - unfold retrieve. destruct (andb _ _); simpl; exact H.
Qed.
Lemma op_touches base t o e q : base + 3 < 2 ^ 32 -> offsets_ok base t -> In e (snd (timer_op t o)) -> touches e q -> base <= q < base + 4.
Proof.
  unfold offsets_ok. intros Hb Ho He Ht. destruct o; simpl in He.
  - destruct He as [<-|[<-|[]]]; simpl in Ht.
    + destruct Ho as [[A B]|[A B]]; rewrite B in Ht; lia.
    + rewrite u32_small in Ht by (destruct Ho as [[A B]|[A B]]; rewrite B; lia). destruct Ho as [[A B]|[A B]]; rewrite B in Ht; lia.
  - destruct He as [<-|[]]; simpl in Ht.
    rewrite u32_small in Ht by (destruct Ho as [[A B]|[A B]]; rewrite A; lia). destruct Ho as [[A B]|[A B]]; rewrite A in Ht; lia.
  - contradiction.
  - unfold retrieve in He. destruct (andb _ _); simpl in He; [|contradiction]. destruct He as [<-|[]]. simpl in Ht.
    destruct Ho as [[A B]|[A B]]; rewrite A in Ht; lia.
Qed.
Lemma ops_touches base l : base + 3 < 2 ^ 32 -> forall t e q, offsets_ok base t -> In e (snd (timer_ops t l)) -> touches e q -> base <= q < base + 4.
Proof.
  intro Hb. induction l as [|o l IH]; intros t e q Ho He Ht; simpl in He; [contradiction|].
  pose proof (op_offsets base t o Ho) as Ho'. pose proof (op_touches base t o) as HT.
  destruct (timer_op t o) as [t1 l1]. simpl in *. specialize (IH t1). destruct (timer_ops t1 l) as [t2 l2]. simpl in *.
  apply in_app_or in He. destruct He as [He|He]; [eapply HT; eassumption|eapply IH; eassumption].
Qed.

Lemma make_timers_nth count : forall base i t, base + 4 * N.of_nat count < 2 ^ 32 ->
  nth_error (make_timers count base) i = Some t -> offsets_ok (base + 4 * N.of_nat i) t /\ (i < count)%nat.
Proof.
  induction count as [|n IH]; intros base i t Hb H; [destruct i; discriminate|]. simpl in H. destruct i as [|i]; simpl in H.
  - injection H as <-. split; [|lia]. left. simpl. rewrite u32_small by lia. split; lia.
  - rewrite u32_small in H by lia. apply IH in H; [|lia]. destruct H as [H1 H2]. split; [|lia].
    replace (base + 4 * N.of_nat (S i)) with (base + 4 + 4 * N.of_nat i) by lia. exact H1.
Qed.

Lemma graph_timer_queries passes nodes i t l e q :
  (passes <= nodes)%nat -> 4 * (N.of_nat nodes + 1) < 2 ^ 32 ->
  nth_error (graph_timers passes) i = Some t -> In e (snd (timer_ops t l)) -> touches e q ->
  4 * N.of_nat i <= q < 4 * N.of_nat i + 4 /\ q < pool_size (N.of_nat nodes).
Proof.
  intros Hp Hn Ht He Hq. unfold graph_timers in Ht. apply make_timers_nth in Ht; [|lia]. destruct Ht as [Ho Hi].
  assert (K : 0 + 4 * N.of_nat i <= q < 0 + 4 * N.of_nat i + 4).
  { eapply (ops_touches (0 + 4 * N.of_nat i) l); [lia|exact Ho|exact He|exact Hq]. }
  split; [lia|]. unfold pool_size. rewrite u32_small by lia. lia.
Qed.

(* consecutive measures *)
Lemma ops_no_begin base l : forall t, (forall o, In o l -> o <> TBegin) -> offsets_ok base t ->
  q_offset (t_front (fst (timer_ops t l))) = q_offset (t_front t) /\ q_offset (t_back (fst (timer_ops t l))) = q_offset (t_back t).
Proof.
  induction l as [|o l IH]; intros t H Ho; simpl; [split; reflexivity|].
  assert (H' : forall x, In x l -> x <> TBegin) by (intros; apply H; right; assumption).
  pose proof (op_offsets base t o Ho) as Ho'.
  assert (K : q_offset (t_front (fst (timer_op t o))) = q_offset (t_front t) /\ q_offset (t_back (fst (timer_op t o))) = q_offset (t_back t)).
  { destruct o; simpl; auto.
    - exfalso. apply (H TBegin); [left; reflexivity|reflexivity].
    - unfold retrieve. destruct (andb _ _); simpl; auto. }
  destruct (timer_op t o) as [t1 l1]. simpl in *. specialize (IH t1 H' Ho').
  destruct (timer_ops t1 l) as [t2 l2]. simpl in *. destruct K, IH. split; congruence.
Qed.
Lemma ops_offsets base l : forall t, offsets_ok base t -> offsets_ok base (fst (timer_ops t l)).
Proof.
  induction l as [|o l IH]; intros t Ho; simpl; [exact Ho|].
  pose proof (op_offsets base t o Ho) as Ho'. destruct (timer_op t o) as [t1 l1]. simpl in *. specialize (IH t1 Ho').
  destruct (timer_ops t1 l) as [t2 l2]. exact IH.
Qed.

(* a measure: begin, other calls, end *)
Lemma measure_pair base t between : base + 3 < 2 ^ 32 -> offsets_ok base t -> (forall o, In o between -> o <> TBegin) ->
  let t1 := fst (timer_op t TBegin) in
  let t2 := fst (timer_ops t1 between) in
  exists o, snd (timer_op t TBegin) = [ECmd (QReset o 2); ECmd (QWrite o)] /\
            snd (timer_op t2 TEnd) = [ECmd (QWrite (o + 1))] /\
            forall later, (forall x, In x later -> x <> TBegin) ->
            exists o', snd (timer_op (fst (timer_ops (fst (timer_op t2 TEnd)) later)) TBegin) = [ECmd (QReset o' 2); ECmd (QWrite o')] /\
                       (o' + 2 = o \/ o + 2 = o').
Proof.
  intros Hb Ho Hn t1 t2. exists (q_offset (t_back t)).
  pose proof (op_offsets base t TBegin Ho) as Ho1. fold t1 in Ho1.
  pose proof (ops_no_begin base between t1 Hn Ho1) as [K1 K2]. fold t2 in K1, K2.
  pose proof (ops_offsets base between t1 Ho1) as Ho2. fold t2 in Ho2.
  assert (E : q_offset (t_front t1) = q_offset (t_back t)) by reflexivity.
  assert (E2 : q_offset (t_back t1) = q_offset (t_front t)) by reflexivity.
  assert (B : q_offset (t_back t) + 1 < 2 ^ 32) by (destruct Ho as [[? R]|[? R]]; rewrite R; lia).
  split; [|split].
  - simpl. rewrite u32_small by lia. rewrite N.add_0_r. reflexivity.
  - simpl. rewrite K1, E, u32_small by lia. reflexivity.
  - intros later Hl. exists (q_offset (t_front t)).
    pose proof (op_offsets base t2 TEnd Ho2) as Ho3.
    pose proof (ops_no_begin base later (fst (timer_op t2 TEnd)) Hl Ho3) as [L1 L2].
    set (t3 := fst (timer_ops (fst (timer_op t2 TEnd)) later)) in *.
    assert (F : q_offset (t_back t3) = q_offset (t_front t)).
    { rewrite L2. simpl. rewrite K2. exact E2. }
    split.
    + simpl. rewrite F. rewrite u32_small by (destruct Ho as [[R ?]|[R ?]]; rewrite R; lia). rewrite N.add_0_r. reflexivity.
    + destruct Ho as [[R1 R2]|[R1 R2]]; rewrite R1, R2; lia.
Qed.

(* ---------- completed measures ---------- *)
Definition ready (p : qpool) (q : query) : Prop :=
  q_started q = true -> exists m, p (q_offset q) = Some m /\ p (q_offset q + 1) = Some m.
Definition life_inv (base : N) (s : timer * qpool * N) : Prop :=
  let '(t, p, _) := s in offsets_ok base t /\ ready p (t_front t) /\ ready p (t_back t).

Lemma exec_measure m p o : o + 1 < 2 ^ 32 ->
  let p' := q_exec_all m p [QReset o 2; QWrite (u32 (o + 0)); QWrite (u32 (o + 1))] in
  p' o = Some m /\ p' (o + 1) = Some m /\ (forall q, q < o \/ o + 2 <= q -> p' q = p q).
Proof.
  intros Ho p'. unfold p', q_exec_all. simpl. rewrite !u32_small by lia. rewrite N.add_0_r.
  split; [|split].
  - destruct (N.eqb_spec o (o + 1)); [reflexivity|]. rewrite N.eqb_refl. reflexivity.
  - rewrite N.eqb_refl. reflexivity.
  - intros q Hq. destruct (N.eqb_spec q (o + 1)); [lia|]. destruct (N.eqb_spec q o); [lia|].
    destruct (N.leb_spec o q), (N.ltb_spec q (o + 2)); simpl; try reflexivity; lia.
Qed.

Definition consistent (o : gop) : Prop := match o with GRunOp r n => n = true -> r = true | _ => True end.

Lemma life_step base s o : base + 3 < 2 ^ 32 -> life_inv base s -> consistent o ->
  exists s', gop_step s o = Some s' /\ life_inv base s'.
Proof.
  intros Hb Hi Hc. destruct s as [[t p] n]. destruct Hi as (Ho & Hf & Hk). destruct o as [en|r no|]; simpl.
  - eexists; split; [reflexivity|]. destruct en; simpl.
    + split; [|split].
      * unfold offsets_ok in *. simpl. intuition.
      * unfold ready in *. simpl. exact Hk.
      * exact Hf.
    + exact (conj Ho (conj Hf Hk)).
  - destruct r.
    + simpl. eexists; split; [reflexivity|].
      assert (B : q_offset (t_back t) + 1 < 2 ^ 32) by (destruct Ho as [[? R]|[? R]]; rewrite R; lia).
      destruct (exec_measure n p (q_offset (t_back t)) B) as (E1 & E2 & E3).
      assert (D : q_offset (t_front t) + 1 < q_offset (t_back t) \/ q_offset (t_back t) + 2 <= q_offset (t_front t)).
      { destruct Ho as [[R1 R2]|[R1 R2]]; rewrite R1, R2; lia. }
      split; [|split].
      * unfold offsets_ok in *. destruct no; simpl; intuition.
      * intros _. exists n. destruct no; simpl; auto.
      * assert (K : ready (q_exec_all n p [QReset (q_offset (t_back t)) 2; QWrite (u32 (q_offset (t_back t) + 0)); QWrite (u32 (q_offset (t_back t) + 1))]) (t_front t)).
        { intro Hs. destruct (Hf Hs) as (m & A & B'). exists m. rewrite !E3 by lia. auto. }
        destruct no; exact K.
    + destruct no; [specialize (Hc eq_refl); discriminate|]. simpl. eexists; split; [reflexivity|]. exact (conj Ho (conj Hf Hk)).
  - unfold retrieve. destruct (andb (q_started (t_front t)) (q_written (t_front t))) eqn:E.
    + apply andb_true_iff in E. destruct E as [E _]. destruct (Hf E) as (m & A & B). rewrite A, B, N.eqb_refl.
      eexists; split; [reflexivity|]. split; [|split].
      * unfold offsets_ok in *. simpl. exact Ho.
      * unfold ready. simpl. discriminate.
      * exact Hk.
    + eexists; split; [reflexivity|]. exact (conj Ho (conj Hf Hk)).
Qed.

Lemma life_ok base l : base + 3 < 2 ^ 32 -> forall s, life_inv base s -> (forall o, In o l -> consistent o) -> exists s', gops s l = Some s'.
Proof.
  intro Hb. induction l as [|o l IH]; intros s Hi Hl; simpl; [eexists; reflexivity|].
  destruct (life_step base s o Hb Hi (Hl o (or_introl eq_refl))) as (s1 & E & Hi1). rewrite E.
  apply IH; [exact Hi1|]. intros; apply Hl; right; assumption.
Qed.

Lemma life_start base : base + 3 < 2 ^ 32 -> life_inv base (fst (new_timer base), empty_pool, 0).
Proof.
  intro Hb. split; [|split].
  - left. simpl. split; [reflexivity|]. apply u32_small. lia.
  - discriminate.
  - discriminate.
Qed.

Lemma ticks first second : first <= second -> second < 2 ^ 64 -> u64 (second + 2 ^ 64 - first) = second - first.
Proof.
  intros H1 H2. unfold u64. replace (second + 2 ^ 64 - first) with ((second - first) + 1 * 2 ^ 64) by lia.
  rewrite N.mod_add by discriminate. apply N.mod_small. lia.
Qed.
