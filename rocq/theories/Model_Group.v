(* Model of the tree of pass groups.
   Sources: source/RenderGraph/FramePassGroup.cpp:18-128, source/RenderGraph/FrameGraph.cpp:155-174. *)
From Verif Require Export Model_Vk.
From Coq Require Export String.
Local Open Scope N_scope.

(* FramePassGroup.hpp: id, m_name, passes (id and name of each FramePass), groups.
   Simplification: the other members of the passes and the group inputs/outputs are not represented. *)
Inductive pgroup := Grp (gid : N) (gname : string) (passes : list (N * string)) (groups : list pgroup).

Definition g_id (g : pgroup) := match g with Grp i _ _ _ => i end.
Definition g_name (g : pgroup) := match g with Grp _ n _ _ => n end.
Definition g_passes (g : pgroup) := match g with Grp _ _ p _ => p end.
Definition g_groups (g : pgroup) := match g with Grp _ _ _ c => c end.

(* FramePassGroup.cpp:28-37: countPasses, std::accumulate on uint32_t. *)
Fixpoint countPasses (g : pgroup) : N :=
  match g with
  | Grp _ _ ps gs => fold_left (fun val lookup => u32 (val + countPasses lookup)) gs (u32 (N.of_nat (List.length ps)))
  end.

(* FramePassGroup.cpp:39-48: countGroups. *)
Fixpoint countGroups (g : pgroup) : N :=
  match g with
  | Grp _ _ _ gs => fold_left (fun val lookup => u32 (val + countGroups lookup)) gs (u32 (N.of_nat (List.length gs)))
  end.

(* FramePassGroup.cpp:117-128: listPasses: own passes, then each sub-group. *)
Fixpoint listPasses (g : pgroup) : list (N * string) :=
  match g with Grp _ _ ps gs => ps ++ flat_map listPasses gs end.

(* FramePassGroup.cpp:107-115: hasPass. *)
Definition hasPass (g : pgroup) (name : string) : bool :=
  existsb (fun p => String.eqb (snd p) name) (g_passes g).

(* A reference FramePassGroup & held by the user: the list of child positions leading to it from the
   default group of the graph.  Groups are never removed or moved between parents
   (std::vector of std::unique_ptr, only emplace_back), so such a path stays valid. *)
Definition gpath := list nat.

Fixpoint subgroup (path : gpath) (g : pgroup) : option pgroup :=
  match path with
  | [] => Some g
  | i :: r => match nth_error (g_groups g) i with
              | Some c => subgroup r c
              | None => None
              end
  end.

(* Replacement of the i-th element of a vector. *)
Fixpoint set_nth {A} (i : nat) (x : A) (l : list A) : list A :=
  match l, i with
  | [], _ => []
  | _ :: r, O => x :: r
  | y :: r, S k => y :: set_nth k x r
  end.

(* Mutation of the group designated by a reference. *)
Fixpoint update_group (path : gpath) (f : pgroup -> pgroup) (g : pgroup) : pgroup :=
  match path with
  | [] => f g
  | i :: r => match nth_error (g_groups g) i with
              | Some c => Grp (g_id g) (g_name g) (g_passes g) (set_nth i (update_group r f c) (g_groups g))
              | None => g
              end
  end.

(* passes.emplace_back, FramePassGroup.cpp:80 *)
Definition push_pass (id : N) (name : string) (g : pgroup) : pgroup :=
  Grp (g_id g) (g_name g) (g_passes g ++ [(id, name)]) (g_groups g).
(* groups.emplace_back, FramePassGroup.cpp:100 *)
Definition push_group (id : N) (name : string) (g : pgroup) : pgroup :=
  Grp (g_id g) (g_name g) (g_passes g) (g_groups g ++ [Grp id name [] []]).

(* position of the first element satisfying f (std::find_if) *)
Fixpoint find_pos {A} (f : A -> bool) (l : list A) : option nat :=
  match l with
  | [] => None
  | x :: r => if f x then Some O else match find_pos f r with Some k => Some (S k) | None => None end
  end.

Inductive gop := CreatePass (where_ : gpath) (name : string) | CreateGroup (where_ : gpath) (name : string).

(* What the call gives back: a new pass, an exception, a group reference (and whether it is new),
   or nothing because the reference does not exist (impossible for a C++ reference). *)
Inductive gres := NewPass (id : N) (name : string) | DuplicateName | GroupRef (path : gpath) (fresh : bool) | BadRef.

(* FramePassGroup.cpp:70-105: createPass and createPassGroup.  getOutermost (18-26) walks the parent
   pointers up to the default group, which is the whole tree [g] here. *)
Definition gstep (g : pgroup) (o : gop) : pgroup * gres :=
  match o with
  | CreatePass path name =>
      match subgroup path g with
      | None => (g, BadRef)
      | Some sub =>
          if hasPass sub name then (g, DuplicateName)
          else let id := u32 (countPasses g + 1) in
               (update_group path (push_pass id name) g, NewPass id name)
      end
  | CreateGroup path name =>
      match subgroup path g with
      | None => (g, BadRef)
      | Some sub =>
          match find_pos (fun lookup => String.eqb (g_name lookup) name) (g_groups sub) with
          | Some k => (g, GroupRef (path ++ [k]) false)
          | None => let id := u32 (countGroups g + 1) in
                    (update_group path (push_group id name) g, GroupRef (path ++ [List.length (g_groups sub)]) true)
          end
      end
  end.

(* FrameGraph.cpp:155-163: the default group has id 0 and the name of the graph. *)
Definition ginit (name : string) : pgroup := Grp 0 name [] [].

Fixpoint grun (g : pgroup) (ops : list gop) : pgroup * list gres :=
  match ops with
  | [] => (g, [])
  | o :: r => let '(g', x) := gstep g o in let '(g'', xs) := grun g' r in (g'', x :: xs)
  end.
