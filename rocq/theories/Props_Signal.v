(* C41, C59: signals and connections. *)
From Verif Require Import Spec_Signal Proof_Layout Proof_Signal Proof_Signal2.
From Coq Require Import Lia PeanoNat Sorted.
Local Open Scope N_scope.

(* Connections 10, 11, ... to signal 1 of functions 100, 101, ... *)
Definition setup : list sop := [SigCreate 1; SigConnect 1 10 100; SigConnect 1 11 101].

Ltac compute_legal := vm_compute; intuition congruence.
Ltac compute_holes := simpl; repeat split; intros; repeat match goal with H : _ \/ _ |- _ => destruct H end; subst; try contradiction; vm_compute in *; congruence.

(** C41: false in general.  The sequence of the test of the repository (test/TestBases.cpp:86-110): the function
    connected last is never called. *)
Theorem C41_function_lost_refuted : exists l w w',
  legal_all no_signal l /\ sops empty_world l = Some w /\
  expected_calls (ideal_of l) 1 = [102; 103] /\ emit 10 (does (fun _ => [])) w 1 = Finished [102] w'.
Proof.
  exists [SigCreate 1; SigConnect 1 10 100; ConDisconnect 10; SigConnect 1 11 101; ConAssign 10 11 99; SigConnect 1 12 102; ConAssign 10 12 99; SigConnect 1 13 103].
  eexists. eexists. split; [|split; [vm_compute; reflexivity|split; vm_compute; reflexivity]].
  vm_compute. intuition congruence.
Qed.
Print Assumptions C41_function_lost_refuted.
(* Disconnecting the lost function disconnects another one. *)
Theorem C41_other_disconnected_refuted : exists l w w',
  legal_all no_signal l /\ sops empty_world l = Some w /\
  expected_calls (ideal_of l) 1 = [101] /\ emit 10 (does (fun _ => [])) w 1 = Finished [] w'.
Proof.
  exists (setup ++ [ConDisconnect 10; SigConnect 1 12 102; ConDisconnect 12]).
  eexists. eexists. split; [|split; [vm_compute; reflexivity|split; vm_compute; reflexivity]]. vm_compute. intuition congruence.
Qed.
Print Assumptions C41_other_disconnected_refuted.
(* A function that disconnects a later one is called twice. *)
Theorem C41_called_twice_refuted : exists l w w',
  legal_all no_signal l /\ no_hole_all no_signal l /\ sops empty_world l = Some w /\
  expected_calls (ideal_of l) 1 = [100; 101] /\
  emit 10 (does (fun f => if N.eqb f 100 then [ConDisconnect 11] else [])) w 1 = Finished [100; 100] w'.
Proof.
  exists setup. eexists. eexists. split; [|split; [|split; [vm_compute; reflexivity|split; vm_compute; reflexivity]]].
  - compute_legal.
  - compute_holes.
Qed.
Print Assumptions C41_called_twice_refuted.
(* A function replacing itself makes the emission use an iterator that is not valid any more. *)
Theorem C41_bad_iterator_refuted : exists l w,
  legal_all no_signal l /\ no_hole_all no_signal l /\ sops empty_world l = Some w /\
  emit 10 (does (fun f => if N.eqb f 100 then [SigConnect 1 12 102; ConAssign 10 12 99] else [])) w 1 = BadIterator.
Proof.
  exists setup. eexists. split; [|split; [|split; [vm_compute; reflexivity|vm_compute; reflexivity]]]; [compute_legal|compute_holes].
Qed.
Print Assumptions C41_bad_iterator_refuted.

(** C41, for the histories in which nothing is connected while there are fewer functions than when a function still
    connected was connected. *)
Theorem C41_calls_partial : forall l,
  legal_all no_signal l -> no_hole_all no_signal l -> few_connects l ->
  exists w, sops empty_world l = Some w /\
  forall s act fuel, In s (id_signals (ideal_of l)) -> calm act s -> (length (expected_calls (ideal_of l) s) <= fuel)%nat ->
    exists w', emit fuel act w s = Finished (expected_calls (ideal_of l) s) w'.
Proof.
  intros l Hl Hh Hf. destruct (sim_run l empty_world no_signal sim_empty Hl Hh) as (w & E & Hs); [exact Hf|].
  exists w. split; [exact E|]. intros s act fuel Hin Hc Hfuel. fold (ideal_of l) in Hs.
  pose proof (sim_slots w _ Hs s Hin) as Hsl. unfold emit. unfold expected_calls in *. rewrite map_length in Hfuel.
  destruct (emit_calm act s Hc (map slot_of (of_signal s (id_live (ideal_of l)))) [] w fuel []) as [w' Ew].
  - rewrite map_length. exact Hfuel.
  - exact Hsl.
  - simpl. rewrite map_map. exact (sim_sorted w _ Hs s).
  - unfold slots_of in Hsl. destruct (mfind s (w_signals w)) as [g|]; [|discriminate]. simpl in Hsl. injection Hsl as Hsl. rewrite Hsl.
    unfold msize. exists w'. rewrite map_map in Ew. exact Ew.
Qed.
Print Assumptions C41_calls_partial.
(* The functions may disconnect themselves while they are called, if they are all different. *)
Theorem C41_self_disconnect_partial : forall l,
  legal_all no_signal l -> no_hole_all no_signal l -> few_connects l ->
  exists w, sops empty_world l = Some w /\
  forall s act fuel, In s (id_signals (ideal_of l)) -> only_itself act s -> NoDup (expected_calls (ideal_of l) s) ->
    (length (expected_calls (ideal_of l) s) <= fuel)%nat ->
    exists w', emit fuel act w s = Finished (expected_calls (ideal_of l) s) w'.
Proof.
  intros l Hl Hh Hf. destruct (sim_run l empty_world no_signal sim_empty Hl Hh) as (w & E & Hs); [exact Hf|].
  exists w. split; [exact E|]. intros s act fuel Hin Hc Hnd Hfuel. fold (ideal_of l) in Hs.
  pose proof (sim_slots w _ Hs s Hin) as Hsl. unfold emit. unfold expected_calls in *. rewrite map_length in Hfuel.
  destruct (emit_self act s Hc (map slot_of (of_signal s (id_live (ideal_of l)))) [] w fuel []) as [w' Ew].
  - rewrite map_length. exact Hfuel.
  - exact Hsl.
  - simpl. rewrite map_map. exact (sim_sorted w _ Hs s).
  - simpl. rewrite map_map. exact Hnd.
  - unfold slots_of in Hsl. destruct (mfind s (w_signals w)) as [g|]; [|discriminate]. simpl in Hsl. injection Hsl as Hsl. rewrite Hsl.
    unfold msize. exists w'. rewrite map_map in Ew. exact Ew.
Qed.
Print Assumptions C41_self_disconnect_partial.
(* The condition is the right one: a new function connected when it does not hold is lost or misplaced. *)
Theorem C41_condition_needed : forall l s a f,
  legal_all no_signal (l ++ [SigConnect s a f]) -> no_hole_all no_signal l -> few_connects (l ++ [SigConnect s a f]) ->
  ~ no_hole (ideal_of l) (SigConnect s a f) -> ~ In f (expected_calls (ideal_of l) s) ->
  exists w m, sops empty_world (l ++ [SigConnect s a f]) = Some w /\ slots_of w s = Some m /\
    map snd m <> expected_calls (ideal_of (l ++ [SigConnect s a f])) s.
Proof.
  intros l s a f Hl Hh Hf Hno Hnew.
  assert (Hsplit : forall i, legal_all i (l ++ [SigConnect s a f]) -> legal_all i l /\ legal (fold_left ideal_step l i) (SigConnect s a f)).
  { clear. induction l as [|o l IH]; intros i H; simpl in *; [tauto|]. destruct H as [H1 H2]. apply IH in H2. tauto. }
  destruct (Hsplit _ Hl) as [Hl1 Hl2]. fold (ideal_of l) in Hl2.
  unfold few_connects in Hf. rewrite filter_app, app_length in Hf. simpl in Hf.
  destruct (sim_run l empty_world no_signal sim_empty Hl1 Hh) as (w & E & Hs); [unfold connects; simpl; lia|]. fold (ideal_of l) in Hs.
  pose proof Hs as [Hd Hsl _ _ _ _ _ _ Hso].
  destruct Hl2 as [Hin Ha]. pose proof (Hsl s Hin) as Hm. unfold slots_of in Hm. destruct (mfind s (w_signals w)) as [g|] eqn:Eg; [|discriminate]. simpl in Hm. injection Hm as Hm.
  assert (Hcon : con_at w a = None).
  { destruct (con_at w a) eqn:Ec; [|reflexivity]. exfalso. apply Ha. apply (dom_conns w _ Hd). congruence. }
  assert (Hnext : id_next (ideal_of l) = connects l).
  { unfold ideal_of. assert (G : forall l i, id_next (fold_left ideal_step l i) = (id_next i + connects l)%nat).
    { clear. induction l as [|o l IH]; intro i; simpl; [unfold connects; simpl; lia|]. rewrite IH, next_step, (connects_cons o l). lia. }
    rewrite G. reflexivity. }
  pose proof (dom_size w _ Hd s g Eg) as Hz. rewrite Hnext in Hz. unfold connects in Hz.
  destruct (connect_spec w s a f g (dom_inv w _ Hd) Eg Hcon) as (w' & E' & _ & _ & S'); [lia|].
  exists w'. eexists. split; [|split].
  - assert (G : forall l w0, sops w0 (l ++ [SigConnect s a f]) = obind (sops w0 l) (fun w => sop_step w (SigConnect s a f))).
    { clear. induction l as [|o l IH]; intro w0; simpl.
      - destruct (sig_connect w0 s a f); reflexivity.
      - destruct (sop_step w0 o); simpl; [apply IH|reflexivity]. }
    rewrite G, E. simpl. exact E'.
  - rewrite S', N.eqb_refl. reflexivity.
  - unfold ideal_of. rewrite fold_left_app. fold (ideal_of l). simpl. unfold expected_calls, of_signal. cbn [id_live]. rewrite filter_app, map_app. simpl. rewrite N.eqb_refl. simpl.
    fold (of_signal s (id_live (ideal_of l))).
    assert (Hex : exists t, In t (of_signal s (id_live (ideal_of l))) /\ N.of_nat (length (of_signal s (id_live (ideal_of l)))) < tk_num t).
    { simpl in Hno. set (ts := of_signal s (id_live (ideal_of l))) in *. set (n := N.of_nat (length ts)) in *.
      clearbody n. clear - Hno. induction ts as [|t ts IH]; [exfalso; apply Hno; intros t []|].
      destruct (N.ltb_spec n (tk_num t)); [exists t; split; [left; reflexivity|assumption]|].
      destruct IH as (t' & A & B); [intro H'; apply Hno; intros x [<-|Hx]; auto|]. exists t'. split; [right; exact A|exact B]. }
    destruct Hex as (t & Ht & Hbig).
    assert (Em : map tk_fun (of_signal s (id_live (ideal_of l))) = map snd (sg_slots g)) by (rewrite Hm, map_map; reflexivity).
    rewrite Em. apply (hole_breaks (sg_slots g) f _ (tk_num t) (tk_fun t)).
    + rewrite Hm, map_map. apply Hso.
    + rewrite Hm. apply (in_map slot_of). exact Ht.
    + unfold msize. rewrite Hm, map_length. lia.
    + rewrite <- Em. exact Hnew.
Qed.
Print Assumptions C41_condition_needed.

(* The hypotheses are met by a history with moves, assignments and disconnections. *)
Definition usual : list sop :=
  setup ++ [SigConnect 1 12 102; ConMove 13 12; ConDisconnect 13; SigConnect 1 14 104; SigCreate 2; SigConnect 2 15 105; ConAssign 12 15 99; ConDestroy 10].
Example C41_partial_applies : legal_all no_signal usual /\ no_hole_all no_signal usual /\ few_connects usual /\
  expected_calls (ideal_of usual) 1 = [101; 104] /\ expected_calls (ideal_of usual) 2 = [105].
Proof.
  split; [vm_compute; intuition congruence|]. split; [|split; [reflexivity|split; reflexivity]].
  compute_holes.
Qed.
Example C41_needed_applies :
  let l := setup ++ [ConDisconnect 10] in
  legal_all no_signal (l ++ [SigConnect 1 12 102]) /\ no_hole_all no_signal l /\
  ~ no_hole (ideal_of l) (SigConnect 1 12 102) /\ ~ In 102 (expected_calls (ideal_of l) 1).
Proof.
  split; [compute_legal|]. split; [compute_holes|]. split.
  - simpl. intro H. specialize (H _ (or_introl eq_refl)). vm_compute in H. congruence.
  - vm_compute. intuition congruence.
Qed.
(* Self disconnection is one of the behaviours allowed. *)
Example C41_self_applies : forall w, sops empty_world setup = Some w ->
  exists w', emit 10 (does (fun f => if N.eqb f 100 then [ConDisconnect 10] else [])) w 1 = Finished [100; 101] w'.
Proof. intros w H. vm_compute in H. injection H as <-. eexists. vm_compute. reflexivity. Qed.

(** C59: objects may be created, moved, assigned, disconnected and destroyed in any order, signals before or after
    their connections: no destroyed object is used, no assertion fails, destroying a signal ends, and a
    connection that says it is valid designates a living signal. *)
Theorem C59_lifetimes : forall l, legal_all no_signal l -> few_connects l ->
  exists w, sops empty_world l = Some w /\
  (forall a, mfind a (w_conns w) <> None <-> living (ideal_of l) a) /\
  (forall s, mfind s (w_signals w) <> None <-> In s (id_signals (ideal_of l))) /\
  (forall a c s, mfind a (w_conns w) = Some c -> cn_signal c = Some s -> In s (id_signals (ideal_of l))) /\
  (forall s g a, mfind s (w_signals w) = Some g -> In a (sg_conns g) ->
     exists c, mfind a (w_conns w) = Some c /\ cn_signal c = Some s).
Proof.
  intros l Hl Hf. destruct (dom_run l empty_world no_signal dom_empty Hl) as (w & E & [Hi Hs Hc Hz]); [exact Hf|].
  fold (ideal_of l) in *. exists w. split; [exact E|]. split; [exact Hc|]. split; [exact Hs|]. split.
  - intros a c s Ha Es. pose proof (inv_con w Hi a c Ha) as K. rewrite Es in K. apply Hs. tauto.
  - intros s g a Hg Ha. exact (proj1 (proj2 (inv_conns w Hi s g Hg) a) Ha).
Qed.
Print Assumptions C59_lifetimes.
Example C59_applies : let l := usual ++ [SigDestroy 1; ConMove 20 11; ConDestroy 11; SigDestroy 2; ConDisconnect 12; ConDestroy 20; ConDestroy 14] in
  legal_all no_signal l /\ few_connects l /\ id_signals (ideal_of l) = [].
Proof. cbv zeta. split; [vm_compute; intuition congruence|]. split; reflexivity. Qed.
