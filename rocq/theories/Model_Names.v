(* Model of the full names of groups and passes.
   Sources: source/RenderGraph/FramePassGroup.cpp:196-202, source/RenderGraph/FramePass.cpp:982-990. *)
From Verif Require Export Model_Group.
Local Open Scope N_scope.

(* FramePassGroup.hpp: parent.  The groups met from the one designated by a reference up to the default group, which is last. *)
Fixpoint ancestors (path : gpath) (g : pgroup) (above : list pgroup) : option (list pgroup) :=
  match path with
  | [] => Some (g :: above)
  | i :: r => match nth_error (g_groups g) i with
              | Some c => ancestors r c (g :: above)
              | None => None
              end
  end.
(* FramePassGroup.cpp:196-202: getFullName; the default group is the last of the chain, and its name is that of the graph
   (FrameGraph.cpp:160, FrameGraph.hpp getName). *)
Fixpoint group_full_name (chain : list pgroup) : string :=
  match chain with
  | [] => EmptyString
  | [root] => g_name root
  | g :: above => (group_full_name above ++ "/" ++ g_name g)%string
  end.
(* FramePass.cpp:982-985: getFullName of the k-th pass of the group designated by a reference; None where there is no such pass *)
Definition pass_full_name (g : pgroup) (path : gpath) (k : nat) : option string :=
  match ancestors path g [] with
  | None => None
  | Some chain => match chain with
                  | [] => None
                  | sub :: _ => match nth_error (g_passes sub) k with
                                | Some p => Some (group_full_name chain ++ "/" ++ snd p)%string
                                | None => None
                                end
                  end
  end.
(* FramePass.cpp:987-990: getGroupName *)
Definition pass_group_name (g : pgroup) (path : gpath) (k : nat) : option string :=
  match subgroup path g with
  | None => None
  | Some sub => match nth_error (g_passes sub) k with
                | Some p => Some (g_name sub ++ "/" ++ snd p)%string
                | None => None
                end
  end.
