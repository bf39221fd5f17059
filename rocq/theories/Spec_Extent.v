(* Specification vocabulary for the sizes of mip levels. *)
From Verif Require Export Model_Extent.
Local Open Scope N_scope.

(* The Vulkan specification: the size of a level is half that of the one before, rounded down, and never less than 1. *)
Fixpoint level_size (size : N) (level : nat) : N :=
  match level with O => size | S l => N.max 1 (level_size size l / 2) end.
Definition level_extent (im : image) (level : N) : N * N * N :=
  (level_size (i_width im) (N.to_nat level), level_size (i_height im) (N.to_nat level), level_size (i_depth im) (N.to_nat level)).
