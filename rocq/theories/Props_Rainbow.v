(* C106: the colours of the debug labels. *)
From Coq Require Import Lia PeanoNat.
From Verif Require Import Model_Rainbow Spec_Conc.
Local Open Scope Q_scope.

(* A component of a colour, between 0 and 1. *)
Definition component (x : Q) : Prop := 0 <= x <= 1.
(* A pure hue: some component is full, some component is null. *)
Definition pure (r g b : Q) : Prop := (r == 1 \/ g == 1 \/ b == 1) /\ (r == 0 \/ g == 0 \/ b == 0).

Lemma hue_back : hue_after 81 = 0. Proof. vm_compute. reflexivity. Qed.
Lemma hue_periodic k : hue_after k = 0 -> forall n, hue_after (k + n) = hue_after n.
Proof. intros H. induction n as [|n IH]; [rewrite Nat.add_0_r; exact H|]. rewrite Nat.add_succ_r. cbn [hue_after]. rewrite IH. reflexivity. Qed.
Lemma hue_period n : hue_after (81 + n) = hue_after n.
Proof. exact (hue_periodic 81 hue_back n). Qed.
Lemma hue_mod n : hue_after n = hue_after (n mod 81).
Proof.
  rewrite (Nat.div_mod n 81) at 1 by discriminate. generalize (n mod 81) as r. induction (n / 81)%nat as [|k IH]; intros r; [reflexivity|].
  replace (81 * S k + r)%nat with (81 + (81 * k + r))%nat by lia. rewrite hue_period. apply IH.
Qed.
Lemma colour_mod n : label_colour n = label_colour (n mod 81).
Proof. unfold label_colour. cbn [hue_after]. rewrite (hue_mod n) at 1. reflexivity. Qed.

(* The colours as fractions that can be compared *)
Definition colours : list (Q * Q * Q * Q) := map label_colour (seq 0 81).
Definition componentb (x : Q) : bool := andb (Qle_bool 0 x) (Qle_bool x 1).
Definition fineb (c : Q * Q * Q * Q) : bool :=
  let '(r, g, b, a) := c in
  andb (Qeq_bool a 1) (andb (andb (componentb r) (andb (componentb g) (componentb b)))
    (andb (orb (Qeq_bool r 1) (orb (Qeq_bool g 1) (Qeq_bool b 1))) (orb (Qeq_bool r 0) (orb (Qeq_bool g 0) (Qeq_bool b 0))))).
Definition same (c c' : Q * Q * Q * Q) : bool :=
  let '(r, g, b, a) := c in let '(r', g', b', a') := c' in andb (Qeq_bool r r') (andb (Qeq_bool g g') (Qeq_bool b b')).
Lemma colours_fine : forallb fineb colours = true. Proof. vm_compute. reflexivity. Qed.
Fixpoint differb (l : list (Q * Q * Q * Q)) : bool := match l with [] => true | c :: r => andb (forallb (fun d => negb (same c d)) r) (differb r) end.
Lemma colours_differ : differb colours = true. Proof. vm_compute. reflexivity. Qed.

Lemma colour_in n : In (label_colour n) colours.
Proof. rewrite colour_mod. apply in_map. apply in_seq. pose proof (Nat.mod_upper_bound n 81). lia. Qed.

(* Whatever the number of labels, each colour is opaque, its components are between 0 and 1 and it is a pure hue. *)
Theorem C106_colours : forall n, let '(r, g, b, a) := label_colour n in component r /\ component g /\ component b /\ a == 1 /\ pure r g b.
Proof.
  intros n. pose proof (proj1 (forallb_forall _ _) colours_fine _ (colour_in n)) as H. destruct (label_colour n) as [[[r g] b] a]. unfold fineb, componentb in H.
  rewrite !Bool.andb_true_iff, !Bool.orb_true_iff, !Qle_bool_iff in H. unfold component, pure. rewrite !Qeq_bool_iff in H. tauto.
Qed.
Print Assumptions C106_colours.
(* The colours come back after 81 labels. *)
Theorem C106_period : forall n, label_colour (n + 81) = label_colour n.
Proof. intros n. rewrite (colour_mod (n + 81)), (colour_mod n). rewrite <- (Nat.mul_1_l 81) at 1. rewrite Nat.mod_add by discriminate. reflexivity. Qed.
Print Assumptions C106_period.

Lemma differ_nth : forall l i j c d, differb l = true -> (i < j)%nat -> nth_error l i = Some c -> nth_error l j = Some d -> same c d = false.
Proof.
  induction l as [|x r IH]; intros i j c d H L E1 E2; [destruct i; discriminate|]. cbn in H. apply Bool.andb_true_iff in H as [H1 H2]. destruct j as [|j]; [lia|]. destruct i as [|i]; cbn in E1, E2.
  - injection E1 as <-. apply nth_error_In in E2. apply (proj1 (forallb_forall _ _) H1) in E2. apply Bool.negb_true_iff, E2.
  - apply (IH i j c d H2); [lia|exact E1|exact E2].
Qed.
Lemma same_sym c d : same c d = same d c.
Proof.
  destruct c as [[[r g] b] a], d as [[[r' g'] b'] a']. cbn. assert (E : forall x y, Qeq_bool x y = Qeq_bool y x).
  { intros x y. destruct (Qeq_bool x y) eqn:A, (Qeq_bool y x) eqn:B; try reflexivity.
    - apply Qeq_bool_iff in A. apply Qeq_sym, Qeq_bool_iff in A. congruence.
    - apply Qeq_bool_iff in B. apply Qeq_sym, Qeq_bool_iff in B. congruence. }
  rewrite (E r), (E g), (E b). reflexivity.
Qed.
(* Two labels less than 81 apart never have the same colour. *)
Theorem C106_distinct : forall n m, (n < m < n + 81)%nat ->
  let '(r, g, b, _) := label_colour n in let '(r', g', b', _) := label_colour m in ~ (r == r' /\ g == g' /\ b == b').
Proof.
  intros n m L. assert (S : same (label_colour n) (label_colour m) = false).
  { rewrite (colour_mod n), (colour_mod m). set (i := (n mod 81)%nat). set (j := (m mod 81)%nat).
    assert (Ni : (i < 81)%nat) by (apply Nat.mod_upper_bound; discriminate). assert (Nj : (j < 81)%nat) by (apply Nat.mod_upper_bound; discriminate).
    assert (Ne : i <> j). { intros E. pose proof (Nat.div_mod n 81). pose proof (Nat.div_mod m 81). fold i in H. fold j in H0. lia. }
    assert (At : forall k, (k < 81)%nat -> nth_error colours k = Some (label_colour k)).
    { intros k K. unfold colours. rewrite nth_error_map. rewrite (nth_error_nth' _ 0%nat) by (rewrite seq_length; exact K). cbn [option_map]. rewrite seq_nth by exact K. reflexivity. }
    destruct (Nat.lt_ge_cases i j) as [Lt|Ge].
    - apply (differ_nth _ i j _ _ colours_differ Lt); apply At; assumption.
    - rewrite same_sym. apply (differ_nth _ j i _ _ colours_differ); [lia| |]; apply At; assumption. }
  destruct (label_colour n) as [[[r g] b] a], (label_colour m) as [[[r' g'] b'] a']. cbn in S. intros (A & B & C).
  apply Qeq_bool_iff in A. apply Qeq_bool_iff in B. apply Qeq_bool_iff in C. rewrite A, B, C in S. discriminate.
Qed.
Print Assumptions C106_distinct.
(* From a label to the next one, also when the colours come back, no component changes by more than 8 percent: the hue goes round. *)
Definition nearb (c c' : Q * Q * Q * Q) : bool :=
  let '(r, g, b, _) := c in let '(r', g', b', _) := c' in
  let near x y := andb (Qle_bool (x - y) (8 # 100)) (Qle_bool (y - x) (8 # 100)) in andb (near r r') (andb (near g g') (near b b')).
Lemma colours_near : forallb (fun n => nearb (label_colour n) (label_colour (S n))) (seq 0 81) = true. Proof. vm_compute. reflexivity. Qed.
Theorem C106_gradual : forall n, let '(r, g, b, _) := label_colour n in let '(r', g', b', _) := label_colour (S n) in
  (r - r' <= 8 # 100 /\ r' - r <= 8 # 100) /\ (g - g' <= 8 # 100 /\ g' - g <= 8 # 100) /\ (b - b' <= 8 # 100 /\ b' - b <= 8 # 100).
Proof.
  intros n. assert (E : label_colour (S n) = label_colour (S (n mod 81))).
  { unfold label_colour. f_equal. cbn [hue_after]. rewrite (hue_mod n) at 1. reflexivity. }
  rewrite E, (colour_mod n). assert (Hin : In (n mod 81)%nat (seq 0 81)) by (apply in_seq; pose proof (Nat.mod_upper_bound n 81); lia).
  pose proof (proj1 (forallb_forall _ _) colours_near _ Hin) as H. cbv beta in H. destruct (label_colour (n mod 81)) as [[[r g] b] a], (label_colour (S (n mod 81))) as [[[r' g'] b'] a'].
  unfold nearb in H. cbv zeta beta in H. rewrite !Bool.andb_true_iff, !Qle_bool_iff in H. tauto.
Qed.
Print Assumptions C106_gradual.
(* Each call of one thread gives the next colour. *)
Theorem C106_calls : forall supply t n s (log : list event) used, s 0%N = hue_after n ->
  let '(s', log', used', c) := alone supply t (rainbow_code tt) s log used in c = label_colour n /\ s' 0%N = hue_after (S n) /\ log' = log.
Proof. intros supply t n s log used E. cbn [alone rainbow_code put_cell N.eqb]. rewrite E. repeat split. Qed.
Print Assumptions C106_calls.
Example C106_case : label_colour 0 = (1, 1258291 # 16777216, 0, 1) /\ label_colour 79 = (1, 0, 1 # 262144, 1) /\ label_colour 80 = (1, 0, 0, 1).
Proof. vm_compute. repeat split. Qed.

(* The variable is shared by all the contexts and no mutex protects it: two threads that record, each its own graph, race. *)
Theorem C106_threads_refuted : exists sched,
  race (fst (run rainbow_code (fun _ results => match results with [] => Some tt | _ => None end) (fun _ _ => None) sched (start (fun _ => 0) 2))).
Proof.
  exists [0; 1; 0]%nat. exists 0%nat, 1%nat. eexists _, _, _, _, 0%N, true, false. split; [discriminate|]. repeat (split; [reflexivity|]). reflexivity.
Qed.
Print Assumptions C106_threads_refuted.
