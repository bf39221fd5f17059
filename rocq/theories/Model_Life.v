(* Model of the life of the runnable graphs and of their passes: what their constructors create, also when they
   throw, what their destructors destroy, and the command buffers and fences used in between.
   Sources: source/RenderGraph/RunnableGraph.cpp:28-48, 137-285, 287-394, include/RenderGraph/RunnableGraph.hpp:140-157,
   include/RenderGraph/FrameGraphPrerequisites.hpp:173-201, source/RenderGraph/RunnablePass.cpp:130-257, 301-306,
   325-361, 503-518, 528-547, include/RenderGraph/RunnablePass.hpp:309-343, source/RenderGraph/FramePassTimer.cpp:33-77.
   The context is one with a device (all function pointers are there). *)
From Verif Require Export Model_Ctx.
From Coq Require Import List.
Import ListNotations.
Local Open Scope N_scope.

Inductive lkind := LQueryPool | LCommandPool | LFence | LSemaphore | LBuffer.

(* What happens on the device and in the registry of the context, in order. *)
Inductive levent :=
| LCreated (k : lkind) (h parent : N) (name : string)    (* parent: the pool of a command buffer, 0 otherwise *)
| LRefused (k : lkind)                                   (* the driver answered with an error *)
| LDestroyed (k : lkind) (h : N)
| LFreed (pool h : N)                                    (* vkFreeCommandBuffers *)
| LRegistered (k : lkind) (h : N) (name : string)
| LUnregistered (h : N)
| LWaited (f : N)                                        (* vkWaitForFences, without timeout *)
| LResetFence (f : N)
| LResetBuffer (b : N)
| LBegun (b : N)
| LEnded (b : N)
| LSubmitted (b s f : N).

(* The driver: what it answers to a creation, knowing all that happened. *)
Definition ldriver := list levent -> lkind -> option N.

(* A call that may throw: what happened, and the value returned if it did not throw. *)
Definition outcome (A : Type) := (list levent * option A)%type.

(* RunnableGraph.cpp:28-48, 137-160, 199-219, RunnablePass.cpp:135-143, 209-219, 532-543: creation, checkVkResult, registration *)
Definition lcreate (d : ldriver) (k : lkind) (parent : N) (name : string) (log : list levent) : outcome N :=
  match d log k with
  | None => (log ++ [LRefused k], None)
  | Some h => (log ++ [LCreated k h parent name; LRegistered k h name], Some h)
  end.
(* RunnableGraph.cpp:178-186, 187-194, FrameGraphPrerequisites.hpp:190-196 (~ContextObjectT), RunnablePass.cpp:155-164 (~Fence),
   RunnableGraph.cpp:269-275, RunnablePass.cpp:224-230: unregister then destroy, when the handle is not null *)
Definition ldestroy (k : lkind) (h : N) (log : list levent) : list levent :=
  if N.eqb h 0 then log else log ++ [LUnregistered h; LDestroyed k h].
(* RunnableGraph.cpp:277-284, RunnablePass.cpp:232-240 *)
Definition lfree (pool h : N) (log : list levent) : list levent :=
  if N.eqb h 0 then log else log ++ [LUnregistered h; LFreed pool h].

(* ---- Fence (RunnablePass.hpp:68-70) ---- *)
Record lfence := { lf_handle : N; lf_waited : bool }.
(* RunnablePass.cpp:130-144 *)
Definition new_lfence (d : ldriver) (name : string) (log : list levent) : outcome lfence :=
  match lcreate d LFence 0 name log with
  | (log, Some h) => (log, Some {| lf_handle := h; lf_waited := false |})
  | (log, None) => (log, None)
  end.
(* RunnablePass.cpp:146-153: what the moved fence keeps *)
Definition moved_lfence (f : lfence) : lfence := {| lf_handle := 0; lf_waited := lf_waited f |}.
(* RunnablePass.cpp:183-198 *)
Definition lfence_wait (f : lfence) (log : list levent) : lfence * list levent :=
  ({| lf_handle := lf_handle f; lf_waited := true |}, if N.eqb (lf_handle f) 0 then log else log ++ [LWaited (lf_handle f)]).
(* RunnablePass.cpp:166-181 *)
Definition lfence_reset (f : lfence) (log : list levent) : lfence * list levent :=
  if N.eqb (lf_handle f) 0 then ({| lf_handle := lf_handle f; lf_waited := false |}, log)
  else let '(f, log) := if lf_waited f then (f, log) else lfence_wait f log in
       ({| lf_handle := lf_handle f; lf_waited := false |}, log ++ [LResetFence (lf_handle f)]).

(* ---- PassData (RunnablePass.hpp:309-343) ---- *)
Record lpdata := { pd_buffer : N; pd_semaphore : N; pd_fence : lfence }.
(* RunnablePass.cpp:202-220: the fence is a member, destroyed when the creation of the semaphore throws *)
Definition new_lpdata (d : ldriver) (name : string) (log : list levent) : outcome lpdata :=
  match new_lfence d name log with
  | (log, None) => (log, None)
  | (log, Some f) =>
    match lcreate d LSemaphore 0 name log with
    | (log, None) => (ldestroy LFence (lf_handle f) log, None)
    | (log, Some s) => (log, Some {| pd_buffer := 0; pd_semaphore := s; pd_fence := f |})
    end
  end.
(* RunnablePass.hpp:314-328: what the moved PassData keeps *)
Definition moved_lpdata (p : lpdata) : lpdata := {| pd_buffer := 0; pd_semaphore := 0; pd_fence := moved_lfence (pd_fence p) |}.
(* RunnablePass.cpp:222-241, then the fence *)
Definition destroy_lpdata (pool : N) (log : list levent) (p : lpdata) : list levent :=
  ldestroy LFence (lf_handle (pd_fence p)) (lfree pool (pd_buffer p) (ldestroy LSemaphore (pd_semaphore p) log)).
Definition destroy_lpdatas (pool : N) (l : list lpdata) (log : list levent) : list levent := fold_left (destroy_lpdata pool) l log.

(* ---- RunnablePass ---- *)
Record lpass := { lp_name : string; lp_datas : list lpdata }.
(* RunnablePass.cpp:258-262: one PassData per index.  [grows n] tells that the vector of [n] elements is full: the new element
   is built, the others are moved, and what is left of them is destroyed.  An exception destroys the elements. *)
Fixpoint fill_lpdatas (d : ldriver) (pool : N) (name : string) (grows : nat -> bool) (n : nat) (l : list lpdata) (log : list levent) : outcome (list lpdata) :=
  match n with
  | O => (log, Some l)
  | S n =>
    match new_lpdata d name log with
    | (log, None) => (destroy_lpdatas pool l log, None)
    | (log, Some p) =>
      let log := if grows (List.length l) then destroy_lpdatas pool (map moved_lpdata l) log else log in
      fill_lpdatas d pool name grows n (l ++ [p]) log
    end
  end.
(* FramePass.cpp:976-980: createRunnable calls the function of the user, which builds the pass (RunnablePass.cpp:245-257) and may
   throw before, or after (in the constructor of a derived class, which destroys the base) *)
Inductive user_throw := NoThrow | ThrowBefore | ThrowAfter.
Record pass_plan := { pp_name : string; pp_count : nat; pp_grows : nat -> bool; pp_throw : user_throw }.
(* RunnablePass.cpp:301-306 *)
Definition destroy_lpass (pool : N) (log : list levent) (p : lpass) : list levent := destroy_lpdatas pool (lp_datas p) log.
Definition create_lpass (d : ldriver) (pool : N) (pl : pass_plan) (log : list levent) : outcome lpass :=
  match pp_throw pl with
  | ThrowBefore => (log, None)
  | t =>
    match fill_lpdatas d pool (pp_name pl) (pp_grows pl) (pp_count pl) [] log with
    | (log, None) => (log, None)
    | (log, Some l) =>
      let p := {| lp_name := pp_name pl; lp_datas := l |} in
      match t with ThrowAfter => (destroy_lpass pool log p, None) | _ => (log, Some p) end
    end
  end.

(* ---- RunnableGraph (RunnableGraph.hpp:140-157); the name is the one of m_graph ---- *)
Record lgraph := { lg_name : string; lg_queries : N; lg_pool : N; lg_passes : list lpass; lg_buffer : N; lg_semaphore : N; lg_fence : lfence }.
(* What the construction meets: the name of the graph, whether a creation in the resources cache throws (see C31 and C81 for the
   images and views), the passes, whether the initialisation of a pass throws (a callback of the user). *)
Record graph_plan := { gp_name : string; gp_resources_throw : bool; gp_passes : list pass_plan; gp_initialise_throw : bool }.

(* RunnableGraph.hpp:140-157: the members, destroyed in reverse order *)
Definition destroy_members (queries pool : N) (passes : list lpass) (fence : lfence) (log : list levent) : list levent :=
  let log := ldestroy LFence (lf_handle fence) log in
  let log := fold_left (destroy_lpass pool) passes log in
  ldestroy LQueryPool queries (ldestroy LCommandPool pool log).
(* RunnableGraph.cpp:242-250 *)
Fixpoint create_lpasses (d : ldriver) (pool : N) (plans : list pass_plan) (done : list lpass) (log : list levent) : list levent * list lpass * bool :=
  match plans with
  | [] => (log, done, true)
  | pl :: r => match create_lpass d pool pl log with
               | (log, None) => (log, done, false)
               | (log, Some p) => create_lpasses d pool r (done ++ [p]) log
               end
  end.
(* RunnableGraph.cpp:165-265.  When the body throws, the members are destroyed, and the destructor is not called. *)
Definition new_lgraph (d : ldriver) (g : graph_plan) (log : list levent) : outcome lgraph :=
  let name := (gp_name g ++ "/Graph")%string in
  match lcreate d LQueryPool 0 (gp_name g ++ "TimerQueries")%string log with
  | (log, None) => (log, None)
  | (log, Some queries) =>
    match lcreate d LCommandPool 0 (gp_name g) log with
    | (log, None) => (ldestroy LQueryPool queries log, None)
    | (log, Some pool) =>
      match new_lfence d name log with
      | (log, None) => (ldestroy LQueryPool queries (ldestroy LCommandPool pool log), None)
      | (log, Some fence) =>
        let unwind passes log := (destroy_members queries pool passes fence log, None) in
        match lcreate d LSemaphore 0 name log with
        | (log, None) => unwind [] log
        | (log, Some semaphore) =>
          match lcreate d LBuffer pool name log with
          | (log, None) => unwind [] log
          | (log, Some buffer) =>
            let log := log ++ [LBegun buffer; LEnded buffer] in
            if gp_resources_throw g then unwind [] log
            else match create_lpasses d pool (gp_passes g) [] log with
                 | (log, passes, false) => unwind passes log
                 | (log, passes, true) =>
                   if gp_initialise_throw g then unwind passes log
                   else (log, Some {| lg_name := gp_name g; lg_queries := queries; lg_pool := pool; lg_passes := passes; lg_buffer := buffer;
                                      lg_semaphore := semaphore; lg_fence := fence |})
                 end
          end
        end
      end
    end
  end.
(* RunnableGraph.cpp:267-285, then the members *)
Definition destroy_lgraph (g : lgraph) (log : list levent) : list levent :=
  let log := ldestroy LSemaphore (lg_semaphore g) log in
  let log := lfree (lg_pool g) (lg_buffer g) log in
  destroy_members (lg_queries g) (lg_pool g) (lg_passes g) (lg_fence g) log.

Definition with_lfence (g : lgraph) (f : lfence) : lgraph :=
  {| lg_name := lg_name g; lg_queries := lg_queries g; lg_pool := lg_pool g; lg_passes := lg_passes g; lg_buffer := lg_buffer g;
     lg_semaphore := lg_semaphore g; lg_fence := f |}.
Definition with_lpasses (g : lgraph) (l : list lpass) : lgraph :=
  {| lg_name := lg_name g; lg_queries := lg_queries g; lg_pool := lg_pool g; lg_passes := l; lg_buffer := lg_buffer g;
     lg_semaphore := lg_semaphore g; lg_fence := lg_fence g |}.

(* RunnableGraph.cpp:287-345: record; [throws]: a callback of a pass throws.  The commands are not represented. *)
Definition record_lgraph (throws : bool) (g : lgraph) (log : list levent) : lgraph * list levent :=
  match lg_passes g with
  | [] => (g, log)
  | _ => let '(f, log) := lfence_wait (lg_fence g) log in
         (with_lfence g f, log ++ [LResetBuffer (lg_buffer g); LBegun (lg_buffer g)] ++ (if throws then [] else [LEnded (lg_buffer g)]))
  end.
(* RunnableGraph.cpp:363-394: run *)
Definition run_lgraph (throws : bool) (g : lgraph) (log : list levent) : lgraph * list levent :=
  let '(g, log) := record_lgraph throws g log in
  match lg_passes g, throws with
  | _ :: _, true => (g, log)
  | _, _ => let '(f, log) := lfence_reset (lg_fence g) log in
            (with_lfence g f, log ++ [LSubmitted (lg_buffer g) (lg_semaphore g) (lf_handle f)])
  end.

(* ---- out of a run: the command buffer of a pass ---- *)
Definition set_at {A} (i : nat) (x : A) (l : list A) : list A := firstn i l ++ (match skipn i l with [] => [] | _ :: r => x :: r end).
Definition with_pd_buffer (p : lpdata) (b : N) : lpdata := {| pd_buffer := b; pd_semaphore := pd_semaphore p; pd_fence := pd_fence p |}.
Definition with_pd_fence (p : lpdata) (f : lfence) : lpdata := {| pd_buffer := pd_buffer p; pd_semaphore := pd_semaphore p; pd_fence := f |}.
(* RunnablePass.cpp:341-361: recordOne; 528-547: doCreateCommandBuffer.  None: the allocation threw. *)
Definition record_one (d : ldriver) (pool : N) (name : string) (throws : bool) (p : lpdata) (log : list levent) : outcome lpdata :=
  let alloc := if N.eqb (pd_buffer p) 0
               then match lcreate d LBuffer pool name log with (log, Some b) => (log, Some (with_pd_buffer p b)) | (log, None) => (log, None) end
               else (log, Some p) in
  match alloc with
  | (log, None) => (log, None)
  | (log, Some p) =>
    let '(f, log) := lfence_wait (pd_fence p) log in
    (log ++ [LBegun (pd_buffer p)] ++ (if throws then [] else [LEnded (pd_buffer p)]), Some (with_pd_fence p f))
  end.
(* RunnablePass.cpp:503-518: resetCommandBuffer *)
Definition reset_one (p : lpdata) (log : list levent) : lpdata * list levent :=
  if N.eqb (pd_buffer p) 0 then (p, log)
  else let '(f, log) := lfence_wait (pd_fence p) log in (with_pd_fence p f, log ++ [LResetBuffer (pd_buffer p)]).
(* the data of the index-th PassData of the i-th pass; RunnablePass.cpp:330: an index out of range does nothing *)
Definition on_data (i index : nat) (f : string -> lpdata -> list levent -> list levent * option lpdata) (g : lgraph) (log : list levent) : lgraph * list levent :=
  match nth_error (lg_passes g) i with
  | None => (g, log)
  | Some p => match nth_error (lp_datas p) index with
              | None => (g, log)
              | Some x => match f (lp_name p) x log with
                          | (log, None) => (g, log)
                          | (log, Some x) => (with_lpasses g (set_at i {| lp_name := lp_name p; lp_datas := set_at index x (lp_datas p) |} (lg_passes g)), log)
                          end
              end
  end.
(* RunnablePass.cpp:325-339: reRecordCurrent *)
Definition rerecord_lgraph (d : ldriver) (i index : nat) (throws : bool) (g : lgraph) (log : list levent) : lgraph * list levent :=
  on_data i index (fun name x log => record_one d (lg_pool g) name throws x log) g log.
Definition reset_lgraph (i index : nat) (g : lgraph) (log : list levent) : lgraph * list levent :=
  on_data i index (fun _ x log => let '(x, log) := reset_one x log in (log, Some x)) g log.

(* ---- histories: any number of graphs, and of timers with their own pool ---- *)
Inductive lop :=
| ONew (id : N) (g : graph_plan)                              (* FrameGraph::compile *)
| ODelete (id : N)                                            (* ~RunnableGraph *)
| ORecordGraph (id : N) (throws : bool)                       (* RunnableGraph::record *)
| ORunGraph (id : N) (throws : bool)                          (* RunnableGraph::run *)
| OWaitGraph (id : N)                                         (* getFence().wait, without timeout *)
| OReRecord (id : N) (pass index : nat) (throws : bool)       (* RunnablePass::reRecordCurrent *)
| OResetBuffer (id : N) (pass index : nat)                    (* RunnablePass::resetCommandBuffer *)
| ONewTimer (id : N) (name : string)                          (* FramePassTimer with its own pool: FramePassTimer.cpp:46-57 *)
| ODeleteTimer (id : N).                                      (* FramePassTimer.cpp:59-77 *)
Record lworld := { lw_log : list levent; lw_graphs : nmap lgraph; lw_timers : nmap (N * string) }.
Definition new_lworld : lworld := {| lw_log := []; lw_graphs := []; lw_timers := [] |}.
Definition on_lgraph (f : lgraph -> list levent -> lgraph * list levent) (id : N) (w : lworld) : lworld :=
  match mfind id (lw_graphs w) with
  | None => w
  | Some g => let '(g, log) := f g (lw_log w) in {| lw_log := log; lw_graphs := mput id g (lw_graphs w); lw_timers := lw_timers w |}
  end.
Definition lstep (d : ldriver) (w : lworld) (o : lop) : lworld :=
  match o with
  | ONew id g => match mfind id (lw_graphs w) with
                 | Some _ => w      (* the name is in use *)
                 | None => match new_lgraph d g (lw_log w) with
                           | (log, None) => {| lw_log := log; lw_graphs := lw_graphs w; lw_timers := lw_timers w |}
                           | (log, Some g) => {| lw_log := log; lw_graphs := mput id g (lw_graphs w); lw_timers := lw_timers w |}
                           end
                 end
  | ODelete id => match mfind id (lw_graphs w) with
                  | None => w
                  | Some g => {| lw_log := destroy_lgraph g (lw_log w); lw_graphs := merase id (lw_graphs w); lw_timers := lw_timers w |}
                  end
  | ORecordGraph id t => on_lgraph (record_lgraph t) id w
  | ORunGraph id t => on_lgraph (run_lgraph t) id w
  | OWaitGraph id => on_lgraph (fun g log => let '(f, log) := lfence_wait (lg_fence g) log in (with_lfence g f, log)) id w
  | OReRecord id i j t => on_lgraph (rerecord_lgraph d i j t) id w
  | OResetBuffer id i j => on_lgraph (reset_lgraph i j) id w
  | ONewTimer id name => match mfind id (lw_timers w) with
                         | Some _ => w
                         | None => match lcreate d LQueryPool 0 name (lw_log w) with
                                   | (log, None) => {| lw_log := log; lw_graphs := lw_graphs w; lw_timers := lw_timers w |}
                                   | (log, Some h) => {| lw_log := log; lw_graphs := lw_graphs w; lw_timers := mput id (h, name) (lw_timers w) |}
                                   end
                         end
  | ODeleteTimer id => match mfind id (lw_timers w) with
                       | None => w
                       | Some (h, _) => {| lw_log := ldestroy LQueryPool h (lw_log w); lw_graphs := lw_graphs w; lw_timers := merase id (lw_timers w) |}
                       end
  end.
Definition lrun (d : ldriver) (ops : list lop) : lworld := fold_left (lstep d) ops new_lworld.
