(* Model of the pass ordering of FrameGraph::compile.
   Sources: source/RenderGraph/FrameGraph.cpp:22-111 (sortPasses), 190-200 (compile),
            source/RenderGraph/FramePass.cpp:266-275 (FramePass::dependsOn(FramePass)),
            include/RenderGraph/FramePass.hpp:41-51 (addDependency, addDependencies). *)
From Coq Require Export List NArith Bool Lia.
Export ListNotations.
Local Open Scope N_scope.

(* A FramePass const *: its address, together with the `id` member found behind it
   (FramePass.hpp, member `id`; sortPasses compares some passes by address and some by id). *)
Record pref := { pr_addr : N; pr_id : N }.

(* The part of a FramePass used by the ordering: itself and `passDepends`
   (FramePass.hpp:41-51 appends to it).  Simplification: attachments are not looked at here. *)
Record fpass := { fp_ref : pref; fp_deps : list pref }.

(* Pointer equality, FrameGraph.cpp:62-64 (std::find on FramePass const * ). *)
Definition same_ptr (a b : pref) : bool := N.eqb (pr_addr a) (pr_addr b).

(* FrameGraph.cpp:58-65: every dependency of [p] is already in [sorted]. *)
Definition deps_in (sorted : list fpass) (p : fpass) : bool :=
  forallb (fun d => existsb (fun q => same_ptr (fp_ref q) d) sorted) (fp_deps p).

(* FramePass.cpp:266-275: FramePass::dependsOn( FramePass const & pass ): direct, by id. *)
Definition depends_direct (p q : fpass) : bool :=
  existsb (fun d => N.eqb (pr_id (fp_ref q)) (pr_id d)) (fp_deps p).

(* FrameGraph.cpp:72-82: std::find_if from the front, then vector::insert before the found
   element; None when nothing is found. *)
Fixpoint insert_before (f : fpass -> bool) (p : fpass) (l : list fpass) : option (list fpass) :=
  match l with
  | [] => None
  | q :: r => if f q then Some (p :: q :: r)
              else match insert_before f p r with
                   | Some r' => Some (q :: r')
                   | None => None
                   end
  end.

(* FrameGraph.cpp:88-98: std::find_if on reverse iterators, then insertion at rit.base(), i.e.
   right after the last matching element; None when nothing is found. *)
Fixpoint insert_after_last (f : fpass -> bool) (p : fpass) (l : list fpass) : option (list fpass) :=
  match l with
  | [] => None
  | q :: r => match insert_after_last f p r with
              | Some r' => Some (q :: r')
              | None => if f q then Some (q :: p :: r) else None
              end
  end.

(* Result of one visit of a pass by the inner loop. *)
Inductive visit := Postponed | Inserted (l : list fpass) | Dropped.

(* FrameGraph.cpp:52-104: body of the inner loop.  [Dropped] is the release-build behaviour of the
   `assert( processed )` of line 104: the pass is in neither list any more. *)
Definition visit_pass (sorted : list fpass) (p : fpass) : visit :=
  if negb (deps_in sorted p) then Postponed
  else match insert_before (fun lookup => depends_direct lookup p) p sorted with
       | Some s => Inserted s
       | None => match insert_after_last (fun lookup => depends_direct p lookup) p sorted with
                 | Some s => Inserted s
                 | None => Dropped
                 end
       end.

(* FrameGraph.cpp:52-105: one round over currentPasses.
   Returns (sortedPasses, unsortedPasses, added). *)
Fixpoint sort_round (sorted : list fpass) (cur : list fpass) : list fpass * list fpass * bool :=
  match cur with
  | [] => (sorted, [], false)
  | p :: r => match visit_pass sorted p with
              | Postponed => let '(s, u, a) := sort_round sorted r in (s, p :: u, a)
              | Inserted s' => let '(s, u, a) := sort_round s' r in (s, u, true)
              | Dropped => sort_round sorted r
              end
  end.

(* Outcome of sortPasses / compile: an exception (CRG_Exception), undefined behaviour, or a value.
   [OutOfFuel] is only a model artefact, proved unreachable. *)
Inductive outcome (A : Type) :=
  | Ok (a : A) | Throw | Undefined | OutOfFuel.
Arguments Ok {A} _. Arguments Throw {A}. Arguments Undefined {A}. Arguments OutOfFuel {A}.

(* FrameGraph.cpp:46-111: the while loop, on fuel. *)
Fixpoint sort_loop (fuel : nat) (sorted unsorted : list fpass) : outcome (list fpass) :=
  match unsorted with
  | [] => Ok sorted
  | _ => match fuel with
         | O => OutOfFuel
         | S k => let '(s, u, added) := sort_round sorted unsorted in
                  if added then sort_loop k s u else Throw
         end
  end.

(* FrameGraph.cpp:27-37: pass->passDepends.empty() *)
Definition no_deps (p : fpass) : bool := match fp_deps p with [] => true | _ => false end.

(* FrameGraph.cpp:22-111: sortPasses.  An empty input makes `unsortedPasses.front()` (line 41)
   undefined; compile excludes it. *)
Definition sortPasses (passes : list fpass) : outcome (list fpass) :=
  let sorted := filter no_deps passes in
  let unsorted := filter (fun p => negb (no_deps p)) passes in
  match sorted, unsorted with
  | [], [] => Undefined
  | [], p :: r => sort_loop (S (length r)) [p] r
  | _, _ => sort_loop (S (length unsorted)) sorted unsorted
  end.

(* FrameGraph.cpp:190-201: compile up to the ordering; an empty list of passes throws. *)
Definition compile_order (passes : list fpass) : outcome (list fpass) :=
  match passes with
  | [] => Throw
  | _ => sortPasses passes
  end.
