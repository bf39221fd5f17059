(* Model of the passes recorded again, out of the recordings of their graph.
   Sources: source/RenderGraph/RunnablePass.cpp:258-262, 316-339, 341-371, source/RenderGraph/RunnableGraph.cpp:311-344,
   source/RenderGraph/RunnablePasses/ComputePass.cpp:51-58, RenderQuad.cpp:39-46, RenderMesh.cpp:39-46 (resetPipeline).
   Simplifications: what resetPipeline does before (the pipelines: Model_Pipe.v; the command buffers: Model_Life.v, a recording
   that throws included) is not represented here. *)
From Verif Require Export Model_Run.
From Coq Require Import List.
Import ListNotations.
Local Open Scope N_scope.

(* The graph, and the contexts its passes keep, by identifier and index (RunnablePass.cpp:258-262: all empty at first). *)
Record again := { ag_graph : rgraph; ag_saved : N -> nat -> rctx }.
Definition new_again (g : rgraph) : again := {| ag_graph := g; ag_saved := fun _ _ => new_rctx |}.
(* Of a pass: whether it can be reset, and the number of its indices (ru::Config::resettable, maxPassCount). *)
Record again_conf := { ac_resettable : N -> bool; ac_count : N -> nat }.
(* RunnablePass.cpp:368-371: the context given to recordInto is kept, enabled or not *)
Definition save (k : again_conf) (p : rpass) (c : rctx) (saved : N -> nat -> rctx) : N -> nat -> rctx :=
  if ac_resettable k (rp_id p)
  then fun id i => if andb (N.eqb id (rp_id p)) (Nat.eqb i (rp_index p)) then c else saved id i
  else saved.

Inductive again_op :=
| AgRecord (e : env) (deps : list rctx) (passes : list rpass)   (* RunnableGraph::record; passes: with the indices they give then *)
| AgAgain (e : env) (p : rpass).                                (* RunnablePass::reRecordCurrent; p: with the index it gives then *)

(* The commands recorded: in the command buffer of the graph, or in the one of the index of the pass. *)
Definition again_step (k : again_conf) (s : again) (o : again_op) : again * list cmd :=
  match o with
  (* RunnableGraph.cpp:311-344 *)
  | AgRecord e deps passes =>
      let '(g, l, trace) := record_graph e (ag_graph s) deps passes in
      ({| ag_graph := g; ag_saved := fold_left (fun saved x => save k (fst (fst x)) (snd (fst x)) saved) trace (ag_saved s) |}, l)
  (* RunnablePass.cpp:325-361: a copy of the context kept is used, then thrown away *)
  | AgAgain e p =>
      if Nat.ltb (rp_index p) (ac_count k (rp_id p))
      then let c := ag_saved s (rp_id p) (rp_index p) in
           ({| ag_graph := ag_graph s; ag_saved := save k p c (ag_saved s) |}, snd (recordInto e (ag_graph s) p c))
      else (s, [])
  end.
Fixpoint again_run (k : again_conf) (s : again) (l : list again_op) : again * list (list cmd) :=
  match l with
  | [] => (s, [])
  | o :: r => let '(s1, out) := again_step k s o in let '(s2, outs) := again_run k s1 r in (s2, out :: outs)
  end.
