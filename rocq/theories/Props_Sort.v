(* C01-C05: ordering of the passes by FrameGraph::compile. *)
From Verif Require Import Spec_Sort Proof_Sort.
Local Open Scope N_scope.

(* Concrete registration used for the non-vacuity examples: a diamond registered out of order
   (the sink first), plus an independent pass; and a two-pass cycle. *)
Definition ref (i : N) : pref := {| pr_addr := 1000 + i; pr_id := i |}.
Definition mk (i : N) (ds : list N) : fpass := {| fp_ref := ref i; fp_deps := map ref ds |}.
Definition diamond : list fpass := [mk 1 [2; 3]; mk 2 [4]; mk 3 [4]; mk 4 []; mk 5 []].
Definition two_cycle : list fpass := [mk 1 [2]; mk 2 [1]].

Ltac wr := constructor;
  [ cbv; repeat constructor; simpl; intuition discriminate
  | cbv; repeat constructor; simpl; intuition discriminate
  | simpl; intros p d q Hp Hd Hq E; intuition subst; simpl in *; intuition subst; simpl in *; congruence ].

Example diamond_registered : well_registered diamond.
Proof. wr. Qed.
Example diamond_compiles : compile_order diamond = Ok [mk 4 []; mk 3 [4]; mk 2 [4]; mk 1 [2; 3]; mk 5 []].
Proof. vm_compute. reflexivity. Qed.
Example diamond_root : has_root diamond.
Proof. exists (mk 4 []). split; [simpl; tauto|reflexivity]. Qed.
Example diamond_wellformed : closed diamond /\ acyclic diamond.
Proof. destruct (compile_sound _ diamond_registered _ diamond_root diamond_compiles) as (H1 & H2 & _). auto. Qed.

(** C01. *)
Theorem C01_compile_permutation : forall ps l,
  well_registered ps -> compile_order ps = Ok l -> Permutation ps l.
Proof. exact compile_perm. Qed.
Print Assumptions C01_compile_permutation.

(** C02. *)
Theorem C02_compile_topological : forall ps l,
  well_registered ps -> closed ps -> acyclic ps -> compile_order ps = Ok l -> topological ps l.
Proof. exact compile_topological. Qed.
Print Assumptions C02_compile_topological.

(** C02, without [closed]: a dependency on a pass of another graph (whose id happens to be the id of a
    pass of this graph) can reverse a declared dependency. *)
Theorem C02_foreign_dependency_refuted : exists ps l p q,
  well_registered ps /\ acyclic ps /\ compile_order ps = Ok l /\ needs ps p q /\ ~ before l q p.
Proof.
  set (P := {| fp_ref := ref 1; fp_deps := [{| pr_addr := 5000; pr_id := 2 |}] |}).
  exists [P; mk 2 [1]], [mk 2 [1]; P], (mk 2 [1]), P.
  split; [|split; [|split; [|split]]].
  - subst P. wr.
  - intros x Hx.
    assert (G : forall a b, clos_trans _ (needs [P; mk 2 [1]]) a b -> a = mk 2 [1] /\ b = P).
    { intros a b H. induction H as [a b (Ha & Hb & Hi)|a b c H1 [-> ->] H2 [E _]].
      - destruct Ha as [<-|[<-|[]]]; destruct Hb as [<-|[<-|[]]]; simpl in Hi; intuition; try discriminate.
      - discriminate. }
    destruct (G _ _ Hx) as [E1 E2]. rewrite E1 in E2. discriminate.
  - vm_compute. reflexivity.
  - repeat split; simpl; auto.
  - intros (a & b & c & E). destruct a as [|a0 [|a1 [|]]]; simpl in E; try discriminate;
      injection E; intros; subst; destruct b as [|b0 [|]]; discriminate.
Qed.
Print Assumptions C02_foreign_dependency_refuted.

(** C03. *)
Theorem C03_compile_succeeds_iff : forall ps,
  well_registered ps -> has_root ps ->
  ((exists l, compile_order ps = Ok l) <-> closed ps /\ acyclic ps) /\
  (~ (closed ps /\ acyclic ps) -> compile_order ps = Throw).
Proof. exact compile_iff. Qed.
Print Assumptions C03_compile_succeeds_iff.

Theorem C03_acyclic_always_compiles : forall ps,
  well_registered ps -> ps <> [] -> closed ps -> acyclic ps -> exists l, compile_order ps = Ok l.
Proof. exact compile_complete. Qed.
Print Assumptions C03_acyclic_always_compiles.

Theorem C03_compile_terminates : forall ps,
  compile_order ps <> OutOfFuel /\ compile_order ps <> Undefined.
Proof. exact compile_terminates. Qed.
Print Assumptions C03_compile_terminates.

(** C04: false in general, a cycle in which every pass has a dependency is accepted. *)
Theorem C04_cycle_reported_refuted : exists ps l,
  well_registered ps /\ closed ps /\ ~ acyclic ps /\ compile_order ps = Ok l.
Proof.
  exists two_cycle, [mk 2 [1]; mk 1 [2]].
  split; [|split; [|split]].
  - wr.
  - intros p d Hp Hd. destruct Hp as [<-|[<-|[]]]; destruct Hd as [<-|[]].
    + exists (mk 2 [1]). simpl; auto.
    + exists (mk 1 [2]). simpl; auto.
  - intro H. apply (H (mk 1 [2])). apply t_trans with (mk 2 [1]); apply t_step; repeat split; simpl; auto.
  - vm_compute. reflexivity.
Qed.
Print Assumptions C04_cycle_reported_refuted.

(** C04, restricted to graphs in which some pass has no dependency. *)
Theorem C04_cycle_reported_partial : forall ps,
  well_registered ps -> has_root ps -> ~ acyclic ps -> compile_order ps = Throw.
Proof.
  exact (fun ps W R N => proj2 (compile_iff ps W R) (fun H => N (proj2 H))).
Qed.
Print Assumptions C04_cycle_reported_partial.
Example C04_partial_applies : let ps := mk 3 [] :: two_cycle in
  well_registered ps /\ has_root ps /\ compile_order ps = Throw.
Proof. split; [|split]; [wr|exists (mk 3 []); simpl; auto|vm_compute; reflexivity]. Qed.

(** C05. *)
Theorem C05_independent_passes_stable : forall ps l,
  compile_order ps = Ok l ->
  filter (fun p => match fp_deps p with [] => true | _ => false end) l
  = filter (fun p => match fp_deps p with [] => true | _ => false end) ps.
Proof. exact compile_stable. Qed.
Print Assumptions C05_independent_passes_stable.
