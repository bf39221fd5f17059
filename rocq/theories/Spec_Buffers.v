(* Specification vocabulary: what the recording of graphs knows about a buffer. *)
From Verif Require Export Model_Inout Spec_Attach.
Local Open Scope N_scope.

(* The barriers of the commands on a buffer go from a state to another, each one starting where the one before ended. *)
Fixpoint linked (b : N) (from : pstate) (cmds : list cmd) (to : pstate) : Prop :=
  match cmds with
  | [] => to = from
  | CBufferBarrier b' _ _ srcStage dstStage srcAccess dstAccess :: r =>
      if N.eqb b' b
      then srcStage = ps_stage from /\ srcAccess = ps_access from /\ linked b {| ps_access := dstAccess; ps_stage := dstStage |} r to
      else linked b from r to
  | _ :: r => linked b from r to
  end.
(* No barrier on the buffer. *)
Definition no_barrier (b : N) (cmds : list cmd) : Prop :=
  forall b' off size ss ds sa da, In (CBufferBarrier b' off size ss ds sa da) cmds -> b' <> b.

(* A callback that tells the context of the barriers it records on the buffer. *)
Definition follows (b : N) (f : rctx -> nat -> rctx * list cmd) : Prop :=
  forall c i, linked b (getAccessState c b) (snd (f c i)) (getAccessState (fst (f c i)) b).
(* A callback that has nothing to do with the buffer. *)
Definition ignores (b : N) (f : rctx -> nat -> rctx * list cmd) : Prop :=
  forall c i, getAccessState (fst (f c i)) b = getAccessState c b /\ no_barrier b (snd (f c i)).
Definition callbacks (p : rpass) (K : (rctx -> nat -> rctx * list cmd) -> Prop) : Prop :=
  forall f, In f (rp_pre p) \/ In f (rp_post p) \/ f = rp_record p -> K f.

(* An attachment made by a declaration method of buffers. *)
Definition declared_as (a : attach) (m : buffer_method) (wanted : pstate) : Prop :=
  exists pass bufs binding bview off size flag, a = declare_buffer m pass bufs binding bview off size wanted flag /\
    hasFlag flag AF_Image = false /\ hasFlag flag AF_NoTransition = false.
(* The uses that the graph follows, and the state they ask for: the one given for an implicit buffer, else that of the kind of use. *)
Definition tracked_use (m : buffer_method) : bool := match buffer_usage m with BUniform | BUniformTexel => false | _ => true end.
Definition use_state (m : buffer_method) (wanted : pstate) (compute : bool) : pstate :=
  match buffer_usage m with
  | BImplicit => wanted
  | u => {| ps_access := N.lor (if buf_reads m then buf_read_bit u else 0) (if buf_writes m then buf_write_bit u else 0); ps_stage := buf_stage u compute |}
  end.
(* An attachment that is not a followed use of the buffer. *)
Definition other_buffer (b : N) (index : nat) (a : attach) : Prop :=
  attach_buffer a index <> b \/ exists m wanted, declared_as a m wanted /\ tracked_use m = false.
(* A pass that has nothing to do with the buffer. *)
Definition ignoring_pass (e : env) (b : N) (p : rpass) : Prop :=
  e_enabled e (rp_id p) = true -> (forall a, In a (rp_buffers p) -> other_buffer b (rp_index p) a) /\ callbacks p (ignores b).

(* What the graphs depended on say of a buffer: the first one that knows it. *)
Fixpoint handed (b : N) (deps : list rctx) : pstate :=
  match deps with
  | [] => bottom_state
  | d :: r => match mfind b (rc_buffers d) with Some s => s | None => handed b r end
  end.
