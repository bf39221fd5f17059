(* Specification vocabulary for the group tree. *)
From Verif Require Export Model_Group.
From Coq Require Export Permutation.
Local Open Scope N_scope.

(* Identifiers and names of the passes that the calls of a history returned, in call order. *)
Definition created_passes (rs : list gres) : list (N * string) :=
  flat_map (fun r => match r with NewPass i n => [(i, n)] | _ => [] end) rs.

(* Number of groups the calls of a history created. *)
Definition created_groups (rs : list gres) : nat :=
  List.length (filter (fun r => match r with GroupRef _ true => true | _ => false end) rs).

(* 1, 2, ..., n *)
Definition one_to (n : nat) : list N := map N.of_nat (seq 1 n).

(* All the groups of a tree, the default group included. *)
Fixpoint all_groups (g : pgroup) : list pgroup :=
  match g with Grp _ _ _ gs => g :: flat_map all_groups gs end.
