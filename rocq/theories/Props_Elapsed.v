(* C112: the elapsed time of a pass is that of its last measure. *)
From Verif Require Import Spec_Elapsed Proof_Timer Proof_Elapsed.
From Coq Require Import Lia.
Local Open Scope N_scope.

(** C112.  After any steady history, a run in which the pass is enabled, and any number of frames in which it is disabled: the elapsed
    time is that of this run. *)
Theorem C112_last_run_shown : forall base before after, base + 3 < 2 ^ 32 -> steady before -> (forall o, In o after -> disabled_op o) ->
  exists s, gops (fresh_moment base) (before ++ GRunOp true true :: after) = Some s /\ shown_now s = Some (recordings before).
Proof.
  intros base before after Hb H Hd. destruct (keeps_all base before Hb _ _ (keeps_fresh base Hb) H) as (s1 & x1 & E1 & K1 & N1).
  destruct (keeps_step base s1 x1 (GRunOp true true) Hb K1 (fun _ => eq_refl)) as (s2 & E2 & K2 & _).
  destruct (keeps_disabled base after Hb Hd s2 _ K2) as (s3 & E3 & K3). exists s3. rewrite gops_app, E1. cbn [gops]. rewrite E2. split; [exact E3|].
  rewrite (keeps_shown base s3 _ K3). destruct x1. cbn [pair_step fst]. rewrite N1. reflexivity.
Qed.
Print Assumptions C112_last_run_shown.

(** No measure is shown twice, whatever the recordings, the runs and the questions. *)
Theorem C112_once : forall base l, base + 3 < 2 ^ 32 -> steady l -> NoDup (shown (fresh_moment base) l).
Proof.
  intros base l Hb H. apply (shown_in base l Hb _ _ (keeps_fresh base Hb)); [|exact H]. split; [|split]; discriminate.
Qed.
Print Assumptions C112_once.

(** While the graph is recorded by its runs only, the measures are shown in the order they were made. *)
Theorem C112_in_order_partial : forall base l i j mi mj, base + 3 < 2 ^ 32 -> (forall o, In o l -> o <> GRec true) ->
  (forall rec notified, In (GRunOp rec notified) l -> notified = rec) -> (i < j)%nat ->
  nth_error (shown (fresh_moment base) l) i = Some mi -> nth_error (shown (fresh_moment base) l) j = Some mj -> mi < mj.
Proof.
  intros base l i j mi mj Hb H Hn. apply (shown_sorted base l Hb _ _ (keeps_fresh base Hb)); [|exact H|exact Hn]. split; [|split]; discriminate.
Qed.
Print Assumptions C112_in_order_partial.

(* False when the graph, or the pass alone (a reset of its pipeline), is recorded between the run and the question: the time is then 0,
   or that of the run before, whatever happened before. *)
Theorem C112_recorded_since_refuted : forall base before, base + 3 < 2 ^ 32 -> steady before ->
  (exists s, gops (fresh_moment base) (before ++ [GRunOp true true; GRetrieve; GRunOp true true; GRec true]) = Some s /\ shown_now s = None) /\
  (exists s, gops (fresh_moment base) (before ++ [GRunOp true true; GRunOp true true; GRec true]) = Some s /\ shown_now s = Some (recordings before)).
Proof.
  intros base before Hb H. destruct (keeps_all base before Hb _ _ (keeps_fresh base Hb) H) as (s1 & x1 & E1 & K1 & N1).
  destruct (keeps_step base s1 x1 (GRunOp true true) Hb K1 (fun _ => eq_refl)) as (s2 & E2 & K2 & N2). split.
  - destruct (keeps_step base s2 _ GRetrieve Hb K2 I) as (s3 & E3 & K3 & N3).
    destruct (keeps_step base s3 _ (GRunOp true true) Hb K3 (fun _ => eq_refl)) as (s4 & E4 & K4 & N4).
    destruct (keeps_step base s4 _ (GRec true) Hb K4 I) as (s5 & E5 & K5 & _).
    exists s5. rewrite gops_app, E1. cbn [gops]. rewrite E2, E3, E4, E5. split; [reflexivity|].
    rewrite (keeps_shown base s5 _ K5). destruct x1. reflexivity.
  - destruct (keeps_step base s2 _ (GRunOp true true) Hb K2 (fun _ => eq_refl)) as (s3 & E3 & K3 & N3).
    destruct (keeps_step base s3 _ (GRec true) Hb K3 I) as (s4 & E4 & K4 & _).
    exists s4. rewrite gops_app, E1. cbn [gops]. rewrite E2, E3, E4. split; [reflexivity|].
    rewrite (keeps_shown base s4 _ K4). destruct x1. cbn [pair_step fst]. rewrite N1. reflexivity.
Qed.
Print Assumptions C112_recorded_since_refuted.
(* Nor are the measures shown in order then: the second one is shown, then the first. *)
Theorem C112_order_refuted : exists l, steady l /\ shown (fresh_moment 0) l = [1; 0].
Proof.
  exists [GRunOp true true; GRunOp true true; GRetrieve; GRec true; GRetrieve]. split; [|vm_compute; reflexivity].
  intros r n H E. simpl in H. repeat (destruct H as [H|H]; [try discriminate; injection H as <- <-; auto|]). contradiction.
Qed.
Print Assumptions C112_order_refuted.

Example C112_applies :
  let l := [GRunOp true true; GRetrieve; GRetrieve; GRunOp true true; GRunOp true true; GRetrieve; GRunOp true true; GRunOp false false; GRetrieve; GRetrieve] in
  steady l /\ shown (fresh_moment 8) l = [0; 2; 3] /\ recordings l = 5 /\
  exists s, gops (fresh_moment 8) [GRec true; GRunOp true true; GRunOp false false; GRec false] = Some s /\ shown_now s = Some 1.
Proof.
  cbv zeta. split; [|split; [vm_compute; reflexivity|split; [vm_compute; reflexivity|eexists; vm_compute; split; reflexivity]]].
  intros r n H E. simpl in H. repeat (destruct H as [H|H]; [try discriminate; injection H as <- <-; auto|]). contradiction.
Qed.
