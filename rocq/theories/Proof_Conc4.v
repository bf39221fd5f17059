(* Executions with instantaneous calls are sequential histories. *)
From Verif Require Import Spec_Conc Proof_Conc Proof_Conc2.
From Coq Require Import PeanoNat.
Local Open Scope N_scope.

Section Serial.
Context {cell call result : Type} (body : call -> code cell result) (client : nat -> list result -> option call) (supply : nat -> nat -> option N).
Notation AM := (amachine cell call result).
Notation lab := (label call result).

Definition pending_call (ath : athread call result) : list call := match at_phase ath with Called c => [c] | _ => [] end.
Definition pending_result (ath : athread call result) : list result := match at_phase ath with Answered r => [r] | _ => [] end.
Definition book (A : AM) (l : list lab) (hist : list (nat * (call * result))) : Prop :=
  (forall t ath, nth_error (am_threads A) t = Some ath ->
     calls_of t l = map fst (of_thread t hist) ++ pending_call ath /\ map snd (of_thread t hist) = results_of t l ++ pending_result ath /\ at_results ath = results_of t l) /\
  (forall t, nth_error (am_threads A) t = None -> calls_of t l = [] /\ results_of t l = [] /\ of_thread t hist = []) /\
  begun l = (length hist + length (flat_map pending_call (am_threads A)))%nat.

Lemma calls_app t (l1 l2 : list lab) : calls_of t (l1 ++ l2) = calls_of t l1 ++ calls_of t l2. Proof. apply flat_map_app. Qed.
Lemma results_app t (l1 l2 : list lab) : results_of t (l1 ++ l2) = results_of t l1 ++ results_of t l2. Proof. apply flat_map_app. Qed.
Lemma thread_app {B} t (l1 l2 : list (nat * B)) : of_thread t (l1 ++ l2) = of_thread t l1 ++ of_thread t l2. Proof. apply flat_map_app. Qed.
Lemma begun_app (l1 l2 : list lab) : begun (l1 ++ l2) = (begun l1 + begun l2)%nat. Proof. unfold begun. rewrite flat_map_app, app_length. reflexivity. Qed.
Lemma pend_put f (l : list (athread call result)) t th th' : nth_error l t = Some th -> (length (f th' : list call) = length (f th) -> length (flat_map f (put_athread l t th')) = length (flat_map f l))%nat.
Proof.
  intros H E. rewrite (put_self l t th H) at 2. unfold put_athread. rewrite !flat_map_app, !app_length. cbn [flat_map]. rewrite !app_length, E. reflexivity.
Qed.
Lemma pend_put_gen f (l : list (athread call result)) t th th' : nth_error l t = Some th -> (length (flat_map f (put_athread l t th')) + length (f th : list call) = length (flat_map f l) + length (f th'))%nat.
Proof.
  intros H. rewrite (put_self l t th H) at 2. unfold put_athread. rewrite !flat_map_app, !app_length. cbn [flat_map]. rewrite !app_length. lia.
Qed.

Lemma astep_serial s0 A l hist lg t A' x : serial body supply s0 hist (am_cells A) lg -> book A l hist ->
  (forall t ath, nth_error (am_threads A) t = Some ath -> lg t = (at_log ath, at_used ath)) -> astep body client supply t A = Some (A', x) ->
  exists hist' lg', serial body supply s0 hist' (am_cells A') lg' /\ book A' (l ++ x) hist' /\
    (forall t ath, nth_error (am_threads A') t = Some ath -> lg' t = (at_log ath, at_used ath)).
Proof.
  intros Se (Bk & Bn & Bb) Lg E. unfold astep in E. destruct (nth_error (am_threads A) t) as [ath|] eqn:Ha; [|discriminate].
  pose proof (nth_lt _ _ _ Ha) as Ht. destruct (Bk t ath Ha) as (B1 & B2 & B3).
  assert (Nth : forall ath' u, nth_error (put_athread (am_threads A) t ath') u = if Nat.eqb t u then Some ath' else nth_error (am_threads A) u).
  { intros ath' u. apply nth_put, Ht. }
  destruct (at_phase ath) as [|c|r] eqn:P.
  - destruct (client t (at_results ath)) as [c|] eqn:Ec; [|discriminate]. injection E as <- <-. exists hist, lg. cbn [am_cells am_threads]. split; [exact Se|]. split; [split; [|split]|].
    + cbn [am_threads]. intros u a Hu. rewrite Nth in Hu. rewrite calls_app, results_app. cbn [calls_of results_of flat_map].
      destruct (Nat.eqb_spec t u) as [<-|Hne].
      * injection Hu as <-. rewrite Nat.eqb_refl, !app_nil_r. unfold pending_call, pending_result in *. rewrite P in B1, B2. cbn [at_phase at_results app]. rewrite app_nil_r in B1. rewrite B1. rewrite app_nil_r in B2. split; [|split]; [reflexivity|rewrite ?app_nil_r; exact B2|exact B3].
      * rewrite (proj2 (Nat.eqb_neq u t)) by congruence. cbn [app]. rewrite !app_nil_r. apply Bk, Hu.
    + cbn [am_threads]. intros u Hu. rewrite Nth in Hu. destruct (Nat.eqb_spec t u) as [Hq|Hne]; [discriminate|]. rewrite calls_app, results_app. cbn [calls_of results_of flat_map].
      rewrite (proj2 (Nat.eqb_neq u t)) by congruence. cbn [app]. rewrite !app_nil_r. apply Bn, Hu.
    + rewrite begun_app, Bb. cbn [begun flat_map length app].
      pose proof (pend_put_gen pending_call (am_threads A) t ath {| at_phase := Called c; at_results := at_results ath; at_log := at_log ath; at_used := at_used ath |} Ha) as Q.
      assert (Pa : pending_call ath = match at_phase ath with Called c => [c] | _ => [] end) by reflexivity. rewrite P in Pa. rewrite Pa in Q. cbn [am_threads]. rewrite ?Nat.add_0_r in *. try match type of Q with context [length (pending_call ?x)] => let y := eval unfold pending_call in (pending_call x) in change (pending_call x) with y in Q end. cbn [at_phase length] in Q. cbn [begun flat_map length app] in *. lia.
    + intros u a Hu. rewrite Nth in Hu. destruct (Nat.eqb_spec t u) as [<-|Hne]; [injection Hu as <-; apply (Lg t ath Ha)|apply Lg, Hu].
  - destruct (alone supply t (body c) (am_cells A) (at_log ath) (at_used ath)) as [[[s log] used] r] eqn:Ea. injection E as <- <-.
    exists (hist ++ [(t, (c, r))]), (put_log lg t (log, used)). cbn [am_cells am_threads]. split; [|split; [split; [|split]|]].
    + apply (serial_call body supply s0 hist (am_cells A) lg t c s log used r Se). rewrite (Lg t ath Ha). exact Ea.
    + cbn [am_threads]. intros u a Hu. rewrite Nth in Hu. rewrite app_nil_r, thread_app. unfold of_thread at 2 4. cbn [flat_map fst snd]. 
      destruct (Nat.eqb_spec t u) as [<-|Hne].
      * injection Hu as <-. rewrite Nat.eqb_refl. unfold pending_call, pending_result in *. rewrite P in B1, B2. cbn [at_phase at_results app]. rewrite !map_app. cbn [map fst snd]. rewrite app_nil_r in *. rewrite B1, B2. auto.
      * rewrite (proj2 (Nat.eqb_neq u t)) by congruence. cbn [app]. rewrite !app_nil_r. apply Bk, Hu.
    + cbn [am_threads]. intros u Hu. rewrite Nth in Hu. destruct (Nat.eqb_spec t u) as [Hq|Hne]; [discriminate|]. rewrite app_nil_r, thread_app. unfold of_thread at 2. cbn [flat_map fst snd].
      rewrite (proj2 (Nat.eqb_neq u t)) by congruence. cbn [app]. rewrite !app_nil_r. apply Bn, Hu.
    + rewrite app_nil_r, Bb, app_length. cbn [length am_threads].
      pose proof (pend_put_gen pending_call (am_threads A) t ath {| at_phase := Answered r; at_results := at_results ath; at_log := log; at_used := used |} Ha) as Q.
      assert (Pa : pending_call ath = match at_phase ath with Called c => [c] | _ => [] end) by reflexivity. rewrite P in Pa. rewrite Pa in Q. cbn [am_threads]. rewrite ?Nat.add_0_r in *. try match type of Q with context [length (pending_call ?x)] => let y := eval unfold pending_call in (pending_call x) in change (pending_call x) with y in Q end. cbn [at_phase length] in Q. cbn [begun flat_map length app] in *. lia.
    + intros u a Hu. rewrite Nth in Hu. unfold put_log. destruct (Nat.eqb_spec t u) as [<-|Hne]; [injection Hu as <-; reflexivity|apply Lg, Hu].
  - injection E as <- <-. exists hist, lg. cbn [am_cells am_threads]. split; [exact Se|]. split; [split; [|split]|].
    + cbn [am_threads]. intros u a Hu. rewrite Nth in Hu. rewrite calls_app, results_app. cbn [calls_of results_of flat_map].
      destruct (Nat.eqb_spec t u) as [<-|Hne].
      * injection Hu as <-. rewrite Nat.eqb_refl, !app_nil_r. unfold pending_call, pending_result in *. rewrite P in B1, B2. cbn [at_phase at_results app]. rewrite !app_nil_r in *. rewrite B1, B2, B3. auto.
      * rewrite (proj2 (Nat.eqb_neq u t)) by congruence. cbn [app]. rewrite !app_nil_r. apply Bk, Hu.
    + cbn [am_threads]. intros u Hu. rewrite Nth in Hu. destruct (Nat.eqb_spec t u) as [Hq|Hne]; [discriminate|]. rewrite calls_app, results_app. cbn [calls_of results_of flat_map].
      rewrite (proj2 (Nat.eqb_neq u t)) by congruence. cbn [app]. rewrite !app_nil_r. apply Bn, Hu.
    + rewrite begun_app, Bb. cbn [begun flat_map length app].
      pose proof (pend_put_gen pending_call (am_threads A) t ath {| at_phase := Idle; at_results := at_results ath ++ [r]; at_log := at_log ath; at_used := at_used ath |} Ha) as Q.
      assert (Pa : pending_call ath = match at_phase ath with Called c => [c] | _ => [] end) by reflexivity. rewrite P in Pa. rewrite Pa in Q. cbn [am_threads]. rewrite ?Nat.add_0_r in *. try match type of Q with context [length (pending_call ?x)] => let y := eval unfold pending_call in (pending_call x) in change (pending_call x) with y in Q end. cbn [at_phase length] in Q. cbn [begun flat_map length app] in *. lia.
    + intros u a Hu. rewrite Nth in Hu. destruct (Nat.eqb_spec t u) as [<-|Hne]; [injection Hu as <-; apply (Lg t ath Ha)|apply Lg, Hu].
Qed.
Lemma arun_serial s0 sched : forall A l hist lg, serial body supply s0 hist (am_cells A) lg -> book A l hist ->
  (forall t ath, nth_error (am_threads A) t = Some ath -> lg t = (at_log ath, at_used ath)) ->
  let (A', x) := arun body client supply sched A in
  exists hist' lg', serial body supply s0 hist' (am_cells A') lg' /\ book A' (l ++ x) hist' /\
    (forall t ath, nth_error (am_threads A') t = Some ath -> lg' t = (at_log ath, at_used ath)).
Proof.
  induction sched as [|t sched IH]; intros A l hist lg Se Bk Lg; cbn [arun]; [exists hist, lg; rewrite app_nil_r; auto|].
  destruct (astep body client supply t A) as [[A1 x1]|] eqn:E; [|apply (IH A l hist lg); assumption].
  destruct (astep_serial s0 A l hist lg t A1 x1 Se Bk Lg E) as (h1 & lg1 & Se1 & Bk1 & Lg1). specialize (IH A1 (l ++ x1) h1 lg1 Se1 Bk1 Lg1).
  destruct (arun body client supply sched A1) as [A2 x2]. rewrite app_assoc. exact IH.
Qed.
Lemma book_start s n : book (astart s n) [] [].
Proof.
  split; [|split].
  - intros t ath H. apply nth_error_In, repeat_spec in H. subst. auto.
  - auto.
  - cbn. induction n; [reflexivity|exact IHn].
Qed.
Lemma start_serial s n sched : let (A, l) := arun body client supply sched (astart s n) in
  exists hist lg, serial body supply s hist (am_cells A) lg /\ book A l hist /\ (forall t ath, nth_error (am_threads A) t = Some ath -> lg t = (at_log ath, at_used ath)).
Proof.
  pose proof (arun_serial s sched (astart s n) [] [] (fun _ => ([], O)) (serial_nil _ _ _) (book_start s n)) as Q.
  destruct (arun body client supply sched (astart s n)) as [A l]. apply Q. intros t ath H. apply nth_error_In, repeat_spec in H. subst. reflexivity.
Qed.

(* The place of a call of a thread in the history. *)
Lemma thread_place {B} t (x : B) : forall hist i, nth_error (of_thread t hist) i = Some x ->
  exists p, nth_error hist p = Some (t, x) /\ length (of_thread t (firstn p hist)) = i.
Proof.
  induction hist as [|[u y] hist IH]; intros i H; [destruct i; discriminate|]. cbn [of_thread flat_map fst snd] in H. destruct (Nat.eqb_spec t u) as [<-|Hne].
  - destruct i as [|i]; [injection H as <-; exists 0%nat; auto|]. cbn [app nth_error] in H. destruct (IH i H) as (p & A & C). exists (Datatypes.S p). split; [exact A|].
    cbn [firstn of_thread flat_map fst snd]. rewrite Nat.eqb_refl. cbn [app length]. f_equal. exact C.
  - destruct (IH i H) as (p & A & C). exists (Datatypes.S p). split; [exact A|]. cbn [firstn of_thread flat_map fst snd]. rewrite (proj2 (Nat.eqb_neq t u) Hne). exact C.
Qed.
Lemma book_result A l hist t i r : book A l hist -> nth_error (results_of t l) i = Some r -> exists c p, nth_error hist p = Some (t, (c, r)) /\ length (of_thread t (firstn p hist)) = i /\
  nth_error (calls_of t l) i = Some c.
Proof.
  intros (Bk & Bn & _) H. destruct (nth_error (am_threads A) t) as [ath|] eqn:Ha.
  - destruct (Bk t ath Ha) as (B1 & B2 & _). pose proof (nth_lt _ _ _ H) as Hi.
    assert (E : nth_error (map snd (of_thread t hist)) i = Some r) by (rewrite B2, nth_error_app1 by exact Hi; exact H).
    rewrite nth_error_map in E. destruct (nth_error (of_thread t hist) i) as [[c r']|] eqn:Et; [|discriminate]. cbn in E. injection E as ->.
    destruct (thread_place t (c, r) hist i Et) as (p & P1 & P2). exists c, p. split; [exact P1|]. split; [exact P2|]. rewrite B1, nth_error_app1; [rewrite nth_error_map, Et; reflexivity|].
    rewrite map_length. apply (nth_lt _ _ _ Et).
  - destruct (Bn t Ha) as (_ & R & _). rewrite R in H. destruct i; discriminate.
Qed.
End Serial.
