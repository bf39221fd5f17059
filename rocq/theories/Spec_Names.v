(* Specification vocabulary for the full names. *)
From Verif Require Export Model_Names.
From Coq Require Import Ascii.
Local Open Scope N_scope.

(* The names met when the references are followed from the default group: that of the graph, then those of the groups. *)
Fixpoint names_along (path : gpath) (g : pgroup) : list string :=
  g_name g :: match path with
              | [] => []
              | i :: r => match nth_error (g_groups g) i with Some c => names_along r c | None => [] end
              end.
(* The k-th pass of the group designated by a reference, by its identifier and its name. *)
Definition the_pass (g : pgroup) (path : gpath) (k : nat) : option (N * string) :=
  match subgroup path g with Some sub => nth_error (g_passes sub) k | None => None end.

(* A name without the separator of full names. *)
Definition no_slash (s : string) : Prop := forall i, String.get i s <> Some "/"%char.
(* The name given by a call. *)
Definition op_name (o : gop) : string := match o with CreatePass _ n => n | CreateGroup _ n => n end.
