(* Model of the GPU timers.
   Sources: source/RenderGraph/FramePassTimer.cpp:33-57, 85-155, include/RenderGraph/FramePassTimer.hpp:147-153,
   source/RenderGraph/RunnableGraph.cpp:178-194, 230-239, 363-376, RunnablePass.cpp:245-257, 385, 495, 520-526.
   The CPU times are not represented. *)
From Verif Require Export Model_Vk Model_Float.
Local Open Scope N_scope.

(* FramePassTimer.hpp:147-153 *)
Record query := { q_offset : N; q_written : bool; q_started : bool }.
Record timer := { t_front : query; t_back : query }.
Definition fresh_query (o : N) : query := {| q_offset := o; q_written := false; q_started := false |}.

(* FramePassTimer.cpp:33-45: constructor on a shared pool; gives the next base offset *)
Definition new_timer (base : N) : timer * N :=
  ({| t_front := fresh_query base; t_back := fresh_query (u32 (base + 2)) |}, u32 (base + 4)).
(* FramePassTimer.cpp:47-57: constructor with its own pool of 4 queries *)
Definition own_timer : timer := {| t_front := fresh_query 0; t_back := fresh_query 2 |}.

(* Commands and host calls on the query pool. *)
Inductive qcmd := QReset (first count : N) | QWrite (index : N).

(* FramePassTimer.cpp:103-115 *)
Definition beginPass (t : timer) : timer * list qcmd :=
  let f := t_back t in
  ({| t_front := f; t_back := t_front t |}, [QReset (q_offset f) 2; QWrite (u32 (q_offset f + 0))]).
(* FramePassTimer.cpp:117-125 *)
Definition endPass (t : timer) : timer * list qcmd :=
  let f := t_front t in
  ({| t_front := {| q_offset := q_offset f; q_written := true; q_started := q_started f |}; t_back := t_back t |},
   [QWrite (u32 (q_offset f + 1))]).
(* FramePassTimer.cpp:85-89 *)
Definition notifyPassRender (t : timer) : timer :=
  let f := t_front t in
  {| t_front := {| q_offset := q_offset f; q_written := q_written f; q_started := true |}; t_back := t_back t |}.
(* FramePassTimer.cpp:127-155: the queries read, if any: offset and offset + 1 *)
Definition retrieve (t : timer) : timer * option N :=
  let f := t_front t in
  if andb (q_started f) (q_written f)
  then ({| t_front := fresh_query (q_offset f); t_back := t_back t |}, Some (q_offset f))
  else (t, None).
(* FramePassTimer.cpp:129: the function-local static keeps the period of the first timer that ever asked *)
Definition static_period (known : option f32) (mine : f32) : f32 := match known with Some p => p | None => mine end.
(* FramePassTimer.cpp:147: the duration in nanoseconds, with the rounding of floats; None: the conversion to uint64_t is undefined *)
Definition gpu_time (period : f32) (first second : N) : option N :=
  match f32_of (Z.of_N (u64 (second + 2 ^ 64 - first))) with
  | Some x => match f32_div x period with Some q => option_map Z.to_N (u64_of_f32 q) | None => None end
  | None => None
  end.

(* RunnableGraph.cpp:178-194 and 230-239, RunnablePass.cpp:256: the size of the pool and the timers of a
   graph: its own one, then one per pass, in creation order. *)
Definition pool_size (nodes : N) : N := u32 ((nodes + 1) * 2 * 2).
Fixpoint make_timers (count : nat) (base : N) : list timer :=
  match count with
  | O => []
  | S n => let '(t, b) := new_timer base in t :: make_timers n b
  end.
Definition graph_timers (passes : nat) : list timer := make_timers (S passes) 0.

(* Any history of calls on one timer: the commands it emits and the pairs it reads. *)
Inductive top := TBegin | TEnd | TNotify | TRetrieve.
Inductive tevent := ECmd (c : qcmd) | ERead (first : N).
Definition timer_op (t : timer) (o : top) : timer * list tevent :=
  match o with
  | TBegin => let '(t, l) := beginPass t in (t, map ECmd l)
  | TEnd => let '(t, l) := endPass t in (t, map ECmd l)
  | TNotify => (notifyPassRender t, [])
  | TRetrieve => let '(t, r) := retrieve t in (t, match r with Some o => [ERead o] | None => [] end)
  end.
Fixpoint timer_ops (t : timer) (l : list top) : timer * list tevent :=
  match l with
  | [] => (t, [])
  | o :: r => let '(t, l1) := timer_op t o in let '(t, l2) := timer_ops t r in (t, l1 ++ l2)
  end.

(* The timer of a pass in the life of its graph. RunnableGraph::record (begin and end in the command
   buffer of the graph, when the pass is enabled), RunnableGraph::run (the same, then notify if the pass
   is enabled, then submission), retrieveGpuTime.  The command buffer content is lost at the next
   record. *)
Inductive gop := GRec (enabled : bool) | GRunOp (enabledRecord enabledNotify : bool) | GRetrieve.
Definition rec_cmds (t : timer) (enabled : bool) : timer * list qcmd :=
  if enabled then let '(t, l1) := beginPass t in let '(t, l2) := endPass t in (t, l1 ++ l2) else (t, []).
