(* Model of the render passes and framebuffers of a pass over the runs and re-recordings of its graph.
   Sources: source/RenderGraph/RunnableGraph.cpp:287-394 (record, run), RunnablePass.cpp:316-361 (recordCurrentInto, reRecordCurrent,
   recordOne), 363-371 (the saved context), 503-518 (resetCommandBuffer), RunnablePasses/RenderPassHolder.cpp (Model_Target.v),
   RenderQuad.cpp:40-64, RenderMesh.cpp:43-66, RenderPass.cpp:115-135.
   One holder is followed; the other passes of the graph are in the record contexts, which are arbitrary. *)
From Verif Require Export Spec_Target.
Local Open Scope N_scope.

(* What happens: calls about the holder, with the command buffer they are written to (true: the one of the graph), and the
   operations of the graph on its command buffer and its fence. *)
Inductive fevent :=
| GTarget (own : bool) (x : tevent)
| GReset                        (* vkResetCommandBuffer on the buffer of the graph *)
| GSubmit                       (* vkQueueSubmit of it, with the fence of the graph *)
| GWaited.                      (* vkWaitForFences on the fence of the graph *)

(* A recording of the pass is a [use] (Spec_Target.v): the environment, the graph, the pass and the context when doRecordInto is
   called.  When the pass is disabled nothing is recorded, only the context is saved. *)
Inductive fop :=
| FlRecord (enabled : bool) (u : use)     (* RunnableGraph::record *)
| FlRun (enabled : bool) (u : use)        (* RunnableGraph::run *)
| FlReRecord (u : use)          (* RunnablePass::reRecordCurrent of an enabled pass *)
| FlWait                        (* getFence().wait, without timeout *)
| FlDestroy.                    (* ~RunnableGraph *)
Record flight := { fl_target : target; fl_gone : bool; fl_log : list fevent }.
Definition new_flight (size : N * N) (count : nat) : flight := {| fl_target := new_target size count; fl_gone := false; fl_log := [] |}.

(* Target.v keeps the calls: those that were added *)
Definition new_events (t t' : target) : list tevent := skipn (length (tg_log t)) (tg_log t').
(* RunnablePass.cpp:363-501 then doRecordInto (RenderPass.cpp:115-135, RenderQuad.cpp:50-64, RenderMesh.cpp:48-66) *)
Definition fl_use (own : bool) (f : flight) (u : use) : flight :=
  let t' := use_target (fl_target f) u in
  {| fl_target := t'; fl_gone := fl_gone f; fl_log := fl_log f ++ map (GTarget own) (new_events (fl_target f) t') |}.
Definition fl_emit (f : flight) (l : list fevent) : flight := {| fl_target := fl_target f; fl_gone := fl_gone f; fl_log := fl_log f ++ l |}.
(* RunnableGraph.cpp:287-345; the graph has a pass, hence the fence is waited for (Model_Run.v, C57) *)
Definition fl_record (f : flight) (enabled : bool) (u : use) : flight :=
  let f := fl_emit f [GWaited; GReset] in if enabled then fl_use true f u else f.
Definition fl_step (f : flight) (o : fop) : flight :=
  if fl_gone f then f else
  match o with
  | FlRecord b u => fl_record f b u
  | FlRun b u => fl_emit (fl_record f b u) [GSubmit]            (* RunnableGraph.cpp:363-394 *)
  | FlReRecord u => fl_use false f u                        (* RunnablePass.cpp:325-361: the fence waited for is the one of the pass, never submitted *)
  | FlWait => fl_emit f [GWaited]
  | FlDestroy => let t' := tg_destroy (fl_target f) in
                 {| fl_target := t'; fl_gone := true; fl_log := fl_log f ++ map (GTarget false) (new_events (fl_target f) t') |}
  end.
Definition fly (size : N * N) (count : nat) (ops : list fop) : flight := fold_left fl_step ops (new_flight size count).
