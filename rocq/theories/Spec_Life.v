(* Specification vocabulary for the life of the runnable graphs: which objects live, which are being used by the device,
   what may be asked of the driver, what the registry of the context holds, all read in the log of what happened. *)
From Verif Require Export Model_Life.
From Coq Require Import List.
Import ListNotations.
Local Open Scope N_scope.

Record thing := { th_kind : lkind; th_handle : N; th_parent : N; th_name : string }.
Definition kind_eqb (a b : lkind) : bool :=
  match a, b with
  | LQueryPool, LQueryPool | LCommandPool, LCommandPool | LFence, LFence | LSemaphore, LSemaphore | LBuffer, LBuffer => true
  | _, _ => false
  end.
Definition type_name (k : lkind) : string :=
  match k with LQueryPool => "VkQueryPool" | LCommandPool => "VkCommandPool" | LFence => "VkFence" | LSemaphore => "VkSemaphore" | LBuffer => "VkCommandBuffer" end.
Definition is_thing (k : lkind) (h : N) (x : thing) : bool := andb (kind_eqb (th_kind x) k) (N.eqb (th_handle x) h).

(* The objects that live after a history.  Destroying a command pool frees its command buffers. *)
Definition living_step (l : list thing) (e : levent) : list thing :=
  match e with
  | LCreated k h p n => l ++ [{| th_kind := k; th_handle := h; th_parent := p; th_name := n |}]
  | LDestroyed k h => filter (fun x => negb (orb (is_thing k h x) (andb (kind_eqb k LCommandPool) (andb (kind_eqb (th_kind x) LBuffer) (N.eqb (th_parent x) h))))) l
  | LFreed p h => filter (fun x => negb (is_thing LBuffer h x)) l
  | _ => l
  end.
Definition living_things (log : list levent) : list thing := fold_left living_step log [].

(* The submissions being executed, as far as the host knows: those whose fence was not waited for since. *)
Definition executing_step (l : list (N * N * N)) (e : levent) : list (N * N * N) :=
  match e with
  | LSubmitted b s f => l ++ [(b, s, f)]
  | LWaited f => filter (fun x => negb (N.eqb (snd x) f)) l
  | _ => l
  end.
Definition executing (log : list levent) : list (N * N * N) := fold_left executing_step log [].
Definition in_use (log : list levent) (k : lkind) (h : N) : Prop :=
  exists b s f, In (b, s, f) (executing log) /\
    match k with
    | LBuffer => b = h
    | LSemaphore => s = h
    | LFence => f = h
    | LCommandPool => exists n, In {| th_kind := LBuffer; th_handle := b; th_parent := h; th_name := n |} (living_things log)
    | LQueryPool => False
    end.
Definition lives (log : list levent) (k : lkind) (h : N) : Prop := exists p n, In {| th_kind := k; th_handle := h; th_parent := p; th_name := n |} (living_things log).

(* What may be asked of the driver (and what it answers: handles that are not in use): only living objects are used or destroyed, never while the device uses them; command buffers are
   freed to the pool they come from, which still exists. *)
Definition permitted (log : list levent) (e : levent) : Prop :=
  match e with
  | LCreated k h p _ => ~ In h (map th_handle (living_things log)) /\ (k = LBuffer -> lives log LCommandPool p)
  | LDestroyed k h => lives log k h /\ ~ in_use log k h
  | LFreed p h => (exists n, In {| th_kind := LBuffer; th_handle := h; th_parent := p; th_name := n |} (living_things log)) /\ lives log LCommandPool p /\ ~ in_use log LBuffer h
  | LWaited f => lives log LFence f
  | LResetFence f => lives log LFence f /\ ~ in_use log LFence f
  | LResetBuffer b | LBegun b | LEnded b => lives log LBuffer b /\ ~ in_use log LBuffer b
  | LSubmitted b s f => lives log LBuffer b /\ lives log LSemaphore s /\ lives log LFence f /\ ~ in_use log LBuffer b /\ ~ in_use log LFence f
  | _ => True
  end.
Definition well_used (log : list levent) : Prop := forall before e after, log = before ++ e :: after -> permitted before e.

(* A driver that never gives a null handle, nor a handle in use (it may give again one of a destroyed object). *)
Definition honest (d : ldriver) : Prop := forall log k h, d log k = Some h -> h <> 0 /\ ~ In h (map th_handle (living_things log)).

(* How many times an object of that kind and handle was created, and destroyed (a handle may be given again). *)
Definition creations (k : lkind) (h : N) (log : list levent) : nat :=
  List.length (filter (fun e => match e with LCreated k' h' _ _ => andb (kind_eqb k' k) (N.eqb h' h) | _ => false end) log).
Definition destructions (k : lkind) (h : N) (log : list levent) : nat :=
  List.length (filter (fun e => match e with LDestroyed k' h' => andb (kind_eqb k' k) (N.eqb h' h) | LFreed _ h' => andb (kind_eqb LBuffer k) (N.eqb h' h) | _ => false end) log).

(* The registry of the context (C65). *)
Definition registration (e : levent) : list obj_op :=
  match e with
  | LRegistered k h n => [Register h (type_name k) n]
  | LUnregistered h => [Unregister h]
  | _ => []
  end.
Definition listed (log : list levent) : nmap (string * string) := registry (flat_map registration log).

(* Histories.  A graph was run since its fence was last waited for. *)
Definition flying_step (id : N) (b : bool) (o : lop) : bool :=
  match o with
  | ORunGraph i _ => if N.eqb i id then true else b
  | OWaitGraph i | ODelete i => if N.eqb i id then false else b
  | _ => b
  end.
Definition flying (id : N) (ops : list lop) : bool := fold_left (flying_step id) ops false.
(* The user waits before destroying a graph. *)
Definition waits_first (ops : list lop) : Prop := forall before id after, ops = before ++ ODelete id :: after -> flying id before = false.
(* Everything built is destroyed in the end. *)
Definition open_step (graphs : bool) (id : N) (b : bool) (o : lop) : bool :=
  match o with
  | ONew i _ => if andb graphs (N.eqb i id) then true else b
  | ODelete i => if andb graphs (N.eqb i id) then false else b
  | ONewTimer i _ => if andb (negb graphs) (N.eqb i id) then true else b
  | ODeleteTimer i => if andb (negb graphs) (N.eqb i id) then false else b
  | _ => b
  end.
Definition all_deleted (ops : list lop) : Prop := forall graphs id, fold_left (open_step graphs id) ops false = false.
(* A construction throws after these events. *)
Definition construction_throws (d : ldriver) (before : list lop) (id : N) (g : graph_plan) (events : list levent) : Prop :=
  mfind id (lw_graphs (lrun d before)) = None /\
  new_lgraph d g (lw_log (lrun d before)) = (lw_log (lrun d before) ++ events, None).
Definition has_semaphore (events : list levent) : Prop := exists h p n, In (LCreated LSemaphore h p n) events.
(* No construction throws; or none does once its semaphore exists. *)
Definition no_throw (d : ldriver) (ops : list lop) : Prop := forall before id g after events, ops = before ++ ONew id g :: after -> ~ construction_throws d before id g events.
Definition no_late_throw (d : ldriver) (ops : list lop) : Prop :=
  forall before id g after events, ops = before ++ ONew id g :: after -> construction_throws d before id g events -> ~ has_semaphore events.
