(* Model of the runnable graph: fences, submissions, recording loop.
   Sources: source/RenderGraph/RunnablePass.cpp:33-59, 128-198, 245-299, 316-324, 520-526,
   source/RenderGraph/RunnableGraph.cpp:50-132, 287-393, 458-482, include/RenderGraph/RunnablePass.hpp:49-71. *)
From Verif Require Export Model_Record.
Local Open Scope N_scope.

(* ---- Semaphores ---- *)

(* RunnablePass.cpp:44-59: convert, on the two output vectors.  A SemaphoreWait is (semaphore, mask); 0 is
   the null handle. *)
Definition convert_one (acc : list N * list N) (w : N * N) : list N * list N :=
  if andb (negb (N.eqb (fst w) 0)) (negb (existsb (N.eqb (fst w)) (fst acc)))
  then (fst acc ++ [fst w], snd acc ++ [snd w]) else acc.
Definition convert (toWait : list (N * N)) : list N * list N := fold_left convert_one toWait ([], []).
(* RunnableGraph.cpp:347-361: the array built by run( queue ) and by run( SemaphoreWait, queue ) *)
Definition wait_none : list (N * N) := [].
Definition wait_single (w : N * N) : list (N * N) := if N.eqb (fst w) 0 then [] else [w].

(* ---- Device: one fence, one command buffer, one queue ---- *)

(* Calls to the device.  [DWait r] is vkWaitForFences with the fence, [r] telling whether it returned
   because the fence was signalled (true) or because the timeout expired (false). *)
Inductive dcall :=
| DResetFence
| DWait (signalled : bool)
| DResetCommandBuffer
| DBegin
| DEnd
| DSubmit.

Inductive fence_status := Signalled | Unsignalled | InFlight.
Inductive cb_status := Initial | Recording | Executable | PendingCB | Invalid.

(* ---- Fence ---- *)

(* RunnablePass.hpp:68-70: a fence without handle exists when the context has no vkCreateFence. *)
Record fence := { f_handle : bool; f_waited : bool }.
(* RunnablePass.cpp:130-144: constructor *)
Definition new_fence (handle : bool) : fence := {| f_handle := handle; f_waited := false |}.
(* RunnablePass.cpp:183-198: wait.  [res] is the answer of the device for this call (unused without handle). *)
Definition fence_wait (f : fence) (res : bool) : fence * list dcall :=
  ({| f_handle := f_handle f; f_waited := true |}, if f_handle f then [DWait res] else []).
(* RunnablePass.cpp:166-181: reset; the wait inside has no timeout *)
Definition fence_reset (f : fence) : fence * list dcall :=
  if f_handle f
  then let '(f', l) := if f_waited f then (f, []) else fence_wait f true in
       ({| f_handle := f_handle f'; f_waited := false |}, l ++ [DResetFence])
  else ({| f_handle := f_handle f; f_waited := false |}, []).

(* ---- RunnableGraph: record and run, device calls ---- *)

(* RunnableGraph.cpp:164-229: after the constructor the fence is signalled and the (empty) command buffer ended *)
(* RunnableGraph.cpp:287-345: record.  [passes] is the number of passes; [throws] tells that a callback
   of a pass throws, which leaves record at that point. *)
Definition record_calls (f : fence) (passes : nat) (throws : bool) : fence * list dcall :=
  match passes with
  | O => (f, [])
  | S _ => let '(f, l) := fence_wait f true in
           (f, l ++ [DResetCommandBuffer; DBegin] ++ (if throws then [] else [DEnd]))
  end.
(* RunnableGraph.cpp:363-393: run.  A graph without pass has no callback that could throw. *)
Definition run_calls (f : fence) (passes : nat) (throws : bool) : fence * list dcall :=
  let '(f, l) := record_calls f passes throws in
  match passes, throws with
  | S _, true => (f, l)
  | _, _ => let '(f, l') := fence_reset f in (f, l ++ l' ++ [DSubmit])
  end.

Inductive gcall :=
| GRecord (throws : bool)     (* RunnableGraph::record *)
| GRun (throws : bool)        (* RunnableGraph::run *)
| GWait (signalled : bool)    (* RunnableGraph::getFence().wait( timeout ) *)
| GResetFence.                (* RunnableGraph::getFence().reset() *)
Definition graph_call (f : fence) (passes : nat) (c : gcall) : fence * list dcall :=
  match c with
  | GRecord t => record_calls f passes t
  | GRun t => run_calls f passes t
  | GWait r => fence_wait f r
  | GResetFence => fence_reset f
  end.
Fixpoint graph_calls (f : fence) (passes : nat) (l : list gcall) : fence * list dcall :=
  match l with
  | [] => (f, [])
  | c :: r => let '(f, l1) := graph_call f passes c in
              let '(f, l2) := graph_calls f passes r in (f, l1 ++ l2)
  end.

(* Histories of a Fence object alone, with the submissions its user makes. *)
Inductive fcall := FReset | FWait (signalled : bool) | FSubmit.
Fixpoint fence_calls (f : fence) (l : list fcall) : fence * list dcall :=
  match l with
  | [] => (f, [])
  | c :: r => let '(f, l1) := match c with FReset => fence_reset f | FWait b => fence_wait f b | FSubmit => (f, [DSubmit]) end in
              let '(f, l2) := fence_calls f r in (f, l1 ++ l2)
  end.

(* ---- Recording loop: neighbours ---- *)

(* Attachment.cpp:534-539: getViewCount; Attachment.hpp: the i-th view *)
Definition attach_views (a : attach) : list view := if isImage a then ia_views a else [].
(* RunnablePass.cpp:258-287: the image layouts a runnable pass exposes (m_imageLayouts) *)
Definition resolve_all (v : view) : list view := match v_source v with [] => [v] | l => l end.
Definition pass_layouts (separate : bool) (p : rpass) : handler :=
  fold_left (fun h a =>
    fold_left (fun h v =>
      fold_left (fun h s => setLayoutState h (v_image s) (v_type s) (v_range s)
          (mk_lstate (a_getImageLayout a separate) (a_getAccessMask a) (a_getPipelineStageFlags a (rp_compute p))))
        (resolve_all v) h) (attach_views a) h) (rp_images p) [].

(* RunnableGraph.cpp:50-82: mergeRanges *)
Definition merge_levels (cur nxt : mip_states) : mip_states :=
  fold_left (fun acc e => match mfind (fst e) nxt with Some s => minsert (fst e) s acc | None => acc end) cur [].
Definition mergeRanges (next : handler) (k : N) (cur : layer_states) : layer_states :=
  match mfind k next with
  | None => []
  | Some nxt =>
      fold_left (fun acc e =>
        match mfind (fst e) nxt with
        | Some nl => mput (fst e) (merge_levels (snd e) nl) acc
        | None => acc
        end) cur []
  end.

(* RunnableGraph.cpp:97-105: find_if over the current layouts *)
Fixpoint find_shared (next cur : handler) : option (N * layer_states) :=
  match cur with
  | [] => None
  | (k, states) :: r => match mergeRanges next k states with
                        | [] => find_shared next r
                        | m => Some (k, m)
                        end
  end.
(* RunnableGraph.cpp:84-117: gatherNextImageLayouts *)
Fixpoint gather (e : env) (cur : handler) (nexts : list rpass) (result : handler) : handler :=
  match cur, nexts with
  | [], _ | _, [] => result
  | _, p :: r =>
      if e_enabled e (rp_id p)
      then match find_shared (pass_layouts (e_separate e) p) cur with
           | Some (k, m) => gather e (merase k cur) r (minsert k m result)
           | None => gather e cur r result
           end
      else gather e cur r result
  end.
(* RunnableGraph.cpp:119-132: getNextState *)
Fixpoint getNextState (e : env) (current : pstate) (nexts : list rpass) : pstate :=
  match nexts with
  | [] => current
  | p :: r => if e_enabled e (rp_id p) then rp_state p else getNextState e current r
  end.

(* RunnableGraph.cpp:313-334: what is given to setNextPipelineState before a pass is recorded *)
Definition prepare (e : env) (g : rgraph) (p : rpass) (rest : list rpass) (c : rctx) : rctx :=
  match rest with
  | [] => setNextPipelineState c (rp_state p) (g_outputs g)
  | _ => setNextPipelineState c (getNextState e (rp_state p) rest) (gather e (pass_layouts (e_separate e) p) rest [])
  end.

(* RunnableGraph.cpp:311-338: the loop.  Gives the final context, the commands, and for each pass the
   context handed to it and the index returned by recordCurrentInto (RunnablePass.cpp:316-324; ~0u when
   the pass is disabled). *)
Definition INVALID_INDEX : N := 2 ^ 32 - 1.
Definition recorded_index (e : env) (p : rpass) : N := if e_enabled e (rp_id p) then N.of_nat (rp_index p) else INVALID_INDEX.
Fixpoint record_loop (e : env) (g : rgraph) (passes : list rpass) (c : rctx) : rctx * list cmd * list (rpass * rctx * N) :=
  match passes with
  | [] => (c, [], [])
  | p :: rest =>
      let c1 := prepare e g p rest c in
      let '(c2, l1) := recordInto e g p c1 in
      let '(c3, l2, tr) := record_loop e g rest c2 in
      (c3, l1 ++ l2, (p, c1, recorded_index e p) :: tr)
  end.

(* RunnableGraph.cpp:287-345: record.  [deps] are the final states of the graphs this one depends on. *)
Definition start_context (e : env) (deps : list rctx) (passes : list rpass) : rctx :=
  let c := fold_left rc_addStates deps new_rctx in
  match passes with
  | [] => c
  | p :: _ => setNextPipelineState c (rp_state p) (pass_layouts (e_separate e) p)
  end.
Definition record_graph (e : env) (g : rgraph) (deps : list rctx) (passes : list rpass) :
    rgraph * list cmd * list (rpass * rctx * N) :=
  let '(c, l, tr) := record_loop e g passes (start_context e deps passes) in
  ({| g_inputs := g_inputs g; g_outputs := g_outputs g; g_final := c |}, l, tr).

(* RunnableGraph.cpp:391-392: the stage mask of the semaphore returned by run *)
Definition returned_stage (g : rgraph) : N := ps_stage (rc_currState (g_final g)).

(* RunnableGraph.cpp:458-482: getNextLayoutState; RunnablePass.hpp:231-234: RunnablePass::getLayoutState *)
Definition getNextLayoutState (e : env) (g : rgraph) (c : rctx) (p : rpass) (v : view) : lstate :=
  let r0 := getLayoutState (rc_next c) (v_image v) (v_type v) (v_range v) in
  if negb (N.eqb (ls_layout r0) L_UNDEFINED) then r0
  else
    let r1 := getLayoutState (g_outputs g) (v_image v) (v_type v) (v_range v) in
    if negb (N.eqb (ls_layout r1) L_UNDEFINED) then r1
    else getLayoutState (pass_layouts (e_separate e) p) (v_image v) (v_type v) (v_range v).
