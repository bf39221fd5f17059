(* Lifetimes over whole histories. *)
From Verif Require Export Proof_Pipe2.
From Coq Require Import Lia ZifyBool ZifyNat ZifyN Permutation PeanoNat.
Local Open Scope N_scope.

Definition total (k : kind) (m : nmap ppass) (x : N) : nat := fold_right (fun e s => (own k (pp_holder (snd e)) x + s)%nat) 0%nat m.
Lemma merase_absent {V} k (m : nmap V) : mfind k m = None -> merase k m = m.
Proof.
  induction m as [|[k' v] r IH]; [reflexivity|]. cbn. destruct (N.eqb_spec k k') as [E|E]; [discriminate|]. intro H.
  destruct (N.eqb_spec k' k); [congruence|]. cbn. f_equal. apply IH, H.
Qed.
Lemma sorted_tail_absent {V} k (v : V) r : keys_sorted ((k, v) :: r) -> mfind k r = None.
Proof.
  intro H. destruct (mfind k r) as [w|] eqn:E; [|reflexivity]. exfalso. apply mfind_in' in E.
  unfold keys_sorted in H. cbn in H. inversion H as [|? ? Hs Hf]; subst. rewrite Forall_forall in Hf.
  specialize (Hf k (in_map fst _ _ E)). cbn in Hf. lia.
Qed.
Lemma sorted_tail {V} e (r : nmap V) : keys_sorted (e :: r) -> keys_sorted r.
Proof. unfold keys_sorted. cbn. intro H. inversion H; assumption. Qed.
Lemma total_find k id p : forall m x, keys_sorted m -> mfind id m = Some p -> total k m x = (own k (pp_holder p) x + total k (merase id m) x)%nat.
Proof.
  induction m as [|[id' q] r IH]; intros x Hs Hf; [discriminate|]. cbn in Hf.
  unfold merase. cbn [filter fst]. destruct (N.eqb_spec id id') as [E|E].
  - injection Hf as ->. subst id'. rewrite N.eqb_refl. cbn [negb]. fold (merase id r). rewrite merase_absent by (apply (sorted_tail_absent _ _ _ Hs)). reflexivity.
  - destruct (N.eqb_spec id' id); [congruence|]. cbn [negb]. fold (merase id r). cbn [total fold_right snd]. fold (total k r x) (total k (merase id r) x).
    rewrite (IH x (sorted_tail _ _ Hs) Hf). lia.
Qed.
Lemma merase_put {V} id (p : V) m : keys_sorted m -> merase id (mput id p m) = merase id m.
Proof.
  induction m as [|[id' q] r IH]; intro Hs; cbn; [rewrite N.eqb_refl; reflexivity|].
  destruct (N.eqb_spec id id') as [E|E].
  - subst id'. cbn. rewrite N.eqb_refl. reflexivity.
  - destruct (N.ltb id id').
    + cbn. rewrite N.eqb_refl. reflexivity.
    + cbn. destruct (N.eqb_spec id' id); [congruence|]. cbn. f_equal. apply IH, (sorted_tail _ _ Hs).
Qed.
Lemma total_put k id p m x : keys_sorted m -> total k (mput id p m) x = (own k (pp_holder p) x + total k (merase id m) x)%nat.
Proof.
  intro Hs. rewrite (total_find k id p (mput id p m) x); [|apply mput_sorted, Hs|apply mfind_mput_same]. rewrite merase_put by exact Hs. reflexivity.
Qed.

Definition WI (b : bool) (k : kind) (w : pworld) : Prop :=
  keys_sorted (pw_passes w) /\ inv b k (pw_driver w) (total k (pw_passes w)) /\
  (forall id p, mfind id (pw_passes w) = Some p -> holder_ok (pp_holder p) /\ strict b k p).

Lemma WI_pass b k w id p : WI b k w -> mfind id (pw_passes w) = Some p ->
  PI b k (total k (merase id (pw_passes w))) (pw_driver w, p) /\ strict b k p.
Proof.
  intros (H1 & H2 & H3) Hf. destruct (H3 id p Hf) as [Ho Hs]. split; [|exact Hs]. split; [|exact Ho]. cbn.
  revert H2. apply inv_ext. intros x Hx. unfold plus. apply total_find; assumption.
Qed.
Lemma WI_put b k w id d p : WI b k w -> PI b k (total k (merase id (pw_passes w))) (d, p) -> strict b k p ->
  WI b k {| pw_driver := d; pw_passes := mput id p (pw_passes w) |}.
Proof.
  intros (H1 & H2 & H3) [P1 P2] Hs. cbn in *. split; [apply mput_sorted, H1|]. split.
  - cbn. revert P1. apply inv_ext. intros x Hx. unfold plus. symmetry. apply total_put, H1.
  - cbn. intros id' p'. rewrite mfind_mput. destruct (N.eqb_spec id' id) as [E|E]; [intro X; injection X as <-; auto|apply H3].
Qed.

Lemma WI_record b k w id i rp : WI b k w -> (b = true -> k = KPipeline -> pass_index_ok w id i) -> WI b k (fst (do_record w id i rp)).
Proof.
  intros H Hi. unfold do_record. destruct (mfind id (pw_passes w)) as [p|] eqn:E; [|exact H].
  destruct (WI_pass b k w id p H E) as [P S].
  pose proof (record_PI b k _ i rp (pw_driver w) p S (fun e1 e2 => Hi e1 e2 p E) P) as R.
  destruct (pass_record i rp (pw_driver w) p) as [[d' p'] bound]. destruct R as (R1 & R2 & R3). cbn [fst]. apply WI_put; assumption.
Qed.
Lemma WI_records b k l : forall w, WI b k w -> (b = true -> k = KPipeline -> records_sane w l) -> WI b k (fst (do_records w l)).
Proof.
  induction l as [|[[id i] rp] l IH]; intros w H Hs; [exact H|]. cbn [do_records].
  pose proof (WI_record b k w id i rp H (fun e1 e2 => proj1 (proj1 (Hs e1 e2)))) as H1.
  assert (Hs' : b = true -> k = KPipeline -> records_sane (fst (do_record w id i rp)) l) by (intros e1 e2; apply (Hs e1 e2)).
  destruct (do_record w id i rp) as [w1 b1]. cbn [fst] in *. specialize (IH w1 H1 Hs').
  destruct (do_records w1 l) as [w2 b2]. exact IH.
Qed.
Lemma WI_driver b k w f : (forall r, inv b k (pw_driver w) r -> inv b k (f (pw_driver w)) r) -> WI b k w -> WI b k (on_driver f w).
Proof. intros Hf (H1 & H2 & H3). split; [exact H1|]. split; [cbn; apply Hf, H2|exact H3]. Qed.


Lemma own_new k g kd n m a c cr x : x <> 0 -> own k (pp_holder (new_ppass g kd n m a c cr)) x = 0%nat.
Proof.
  intro Hx. unfold own. destruct k; cbn [owned new_ppass pp_holder new_holder ho_pipelines ho_pool ho_setLayout ho_layout].
  1: induction n as [|n IH]; cbn [repeat count_occ]; [reflexivity|]; destruct (N.eq_dec 0 x); [congruence|exact IH].
  all: cbn [count_occ]; destruct (N.eq_dec 0 x); [congruence|reflexivity].
Qed.
Definition op_strict (w : pworld) (o : pop) : Prop := op_sane w o /\ compute_op_ok w o.

Lemma WI_step b k w o : WI b k w -> (b = true -> k = KPipeline -> op_strict w o) -> WI b k (pstep w o).
Proof.
  intros H Ho. destruct o as [id g kd n m a c cr|id i rp|id i pc|id|g l|g]; cbn [pstep].
  - destruct (mfind id (pw_passes w)) as [p|] eqn:E; [exact H|].
    apply WI_put; [exact H| |].
    + split; [|intros _; split; reflexivity]. cbn [fst snd]. destruct H as (H1 & H2 & _). revert H2. apply inv_ext. intros x Hx.
      rewrite merase_absent by exact E. unfold plus. rewrite own_new by exact Hx. reflexivity.
    + intros E1 E2. destruct (Ho E1 E2) as [S C]. cbn in S, C. split.
      * unfold shape, dims. cbn. rewrite !repeat_length. destruct S as [S1 S2]. repeat split; auto.
      * intro Ek. cbn in Ek. subst kd. unfold dims. cbn. rewrite repeat_length. split; [exact C|].
        intros j Hj Hn. exfalso. apply Hn. unfold ho_pipeline. cbn. apply nth_repeat.
  - apply WI_record; [exact H|]. intros E1 E2. destruct (Ho E1 E2) as [S C]. apply S.
  - destruct (mfind id (pw_passes w)) as [p|] eqn:E; [|exact H].
    destruct (WI_pass b k w id p H E) as [P S].
    assert (Hi : b = true -> k = KPipeline -> (i < length (ho_sets (pp_holder p)))%nat /\ (pp_kind p = Compute -> nth i (pp_initialised p) false = true)).
    { intros E1 E2. destruct (Ho E1 E2) as [S1 C]. split; [apply (S1 p E)|apply (C p E)]. }
    pose proof (reset_PI b k _ i pc (pw_driver w) p S Hi P) as R. destruct (pass_reset i pc (pw_driver w) p) as [d' p']. destruct R as (R1 & _ & R3).
    apply WI_put; assumption.
  - destruct (mfind id (pw_passes w)) as [p|] eqn:E; [|exact H].
    destruct (WI_pass b k w id p H E) as [[P _] S]. cbn [fst snd] in P.
    pose proof (inv_cleanup b k _ _ _ P) as R. destruct (ho_cleanup (pw_driver w) (pp_holder p)) as [d' h']. destruct R as [_ R].
    destruct H as (H1 & H2 & H3). split; [apply merase_sorted, H1|]. split; [exact R|].
    cbn [pw_passes]. intros id' p'. rewrite merase_find. destruct (N.eqb id' id); [discriminate|apply H3].
  - unfold do_run. set (w0 := on_driver _ w).
    assert (H0 : WI b k w0). { apply WI_driver; [|exact H]. intros r. apply inv_log. reflexivity. }
    assert (H1 : WI b k (fst (do_records w0 l))). { apply WI_records; [exact H0|]. intros E1 E2. destruct (Ho E1 E2) as [S C]. exact S. }
    destruct (do_records w0 l) as [w1 bound]. cbn [fst] in H1. apply WI_driver; [|exact H1].
    intros r Hr. apply inv_log; [reflexivity|]. apply inv_clear, Hr.
  - apply WI_driver; [|exact H]. intros r. apply inv_log. reflexivity.
Qed.
Lemma WI_new b k : WI b k new_pworld.
Proof.
  split; [constructor|]. split; [|discriminate]. split; [split; [reflexivity|intros []]|]. exists []. split; [reflexivity|]. split; [constructor|]. split; [intros ? []|].
  intros x _. destruct b, k; cbn; lia.
Qed.
Lemma WI_run b k ops : forall w, WI b k w -> (b = true -> k = KPipeline -> sane w ops /\ compute_ok w ops) -> WI b k (prun w ops).
Proof.
  induction ops as [|o r IH]; intros w H Hs; [exact H|]. change (prun w (o :: r)) with (prun (pstep w o) r). apply IH.
  - apply WI_step; [exact H|]. intros E1 E2. destruct (Hs E1 E2) as [[A _] [B _]]. split; assumption.
  - intros E1 E2. destruct (Hs E1 E2) as [[_ A] [_ B]]. split; assumption.
Qed.

Lemma alive_all k ops : exists l, alive_after k (calls ops) = Some l.
Proof.
  destruct (WI_run false k ops new_pworld (WI_new _ _)) as (_ & (_ & l & H & _) & _); [discriminate|]. exists l. exact H.
Qed.
Lemma alive_none b k ops : (b = true -> k = KPipeline -> sane new_pworld ops /\ compute_ok new_pworld ops) -> b = true ->
  pw_passes (prun new_pworld ops) = [] -> (k = KPipeline -> dr_queue (pw_driver (prun new_pworld ops)) = []) ->
  alive_after k (calls ops) = Some [].
Proof.
  intros Hs Hb Hp Hq. destruct (WI_run b k ops new_pworld (WI_new _ _) Hs) as (_ & (_ & l & H & Hn & Hr & Hc) & _).
  unfold calls. rewrite H. destruct l as [|x l]; [reflexivity|]. exfalso.
  destruct (Hr x (or_introl eq_refl)) as [Hx _]. specialize (Hc x ltac:(lia)). rewrite Hb, Hp in Hc. cbn [rel total fold_right] in Hc.
  assert (Q : queued k (pw_driver (prun new_pworld ops)) x = 0%nat). { destruct k; try reflexivity. cbn. rewrite Hq by reflexivity. reflexivity. }
  rewrite Q in Hc. cbn [count_occ] in Hc. destruct (N.eq_dec x x); [lia|contradiction].
Qed.
