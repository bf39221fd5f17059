(* Model of the passes of a runnable graph: from the registered passes to the recorded commands.
   Sources: source/RenderGraph/FrameGraph.cpp:190-234 (compile), source/RenderGraph/RunnableGraph.cpp:239-250 (constructor),
   287-345 (record). *)
From Verif Require Export Model_Sort Model_Run.
Local Open Scope N_scope.

(* FrameGraph.cpp:201-209: one node per sorted pass, in the same order; RunnableGraph.cpp:242-250: one runnable pass per frame pass node,
   in the order of the nodes.  [create] is FramePass::createRunnable, i.e. the function given by the user when he created the pass. *)
Definition runnable_passes (create : fpass -> rpass) (nodes : list fpass) : list rpass := map create nodes.
(* compile followed by a recording; the exceptions of compile are kept.  Simplification: the recording of the model has no failure. *)
Definition compile_and_record (create : fpass -> rpass) (e : env) (g : rgraph) (deps : list rctx) (ps : list fpass) : outcome (list cmd) :=
  match compile_order ps with
  | Ok nodes => Ok (snd (fst (record_graph e g deps (runnable_passes create nodes))))
  | Throw => Throw
  | Undefined => Undefined
  | OutOfFuel => OutOfFuel
  end.
