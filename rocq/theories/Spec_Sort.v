(* Specification vocabulary for the pass ordering, independent of the algorithm. *)
From Verif Require Export Model_Sort.
From Coq Require Export Permutation Relations Wf_nat.
Local Open Scope N_scope.

(* What every registration satisfies: two passes have different addresses and different ids (ids are
   unique in one graph, see C06), and a dependency pointer that points at a registered pass reads the
   id of this pass. *)
Record well_registered (ps : list fpass) : Prop := {
  wr_addr : NoDup (map (fun p => pr_addr (fp_ref p)) ps);
  wr_id : NoDup (map (fun p => pr_id (fp_ref p)) ps);
  wr_ptr : forall p d q, In p ps -> In d (fp_deps p) -> In q ps ->
             pr_addr d = pr_addr (fp_ref q) -> d = fp_ref q }.

(* The dependency [d] designates a pass of [ps]. *)
Definition registered (ps : list fpass) (d : pref) : Prop := exists q, In q ps /\ fp_ref q = d.

(* All declared dependencies designate registered passes. *)
Definition closed (ps : list fpass) : Prop := forall p d, In p ps -> In d (fp_deps p) -> registered ps d.

(* [needs ps p q]: p was declared to depend on q, both registered. *)
Definition needs (ps : list fpass) (p q : fpass) : Prop := In p ps /\ In q ps /\ In (fp_ref q) (fp_deps p).

(* No pass depends on itself, directly or not. *)
Definition acyclic (ps : list fpass) : Prop := forall p, ~ clos_trans _ (needs ps) p p.

(* [q] occurs strictly before [p] in the order [l]. *)
Definition before (l : list fpass) (q p : fpass) : Prop :=
  exists l1 l2 l3, l = l1 ++ q :: l2 ++ p :: l3.

(* Every pass comes after all the passes it depends on. *)
Definition topological (ps l : list fpass) : Prop := forall p q, needs ps p q -> before l q p.

(* Some pass was declared without dependency. *)
Definition has_root (ps : list fpass) : Prop := exists p, In p ps /\ fp_deps p = [].
