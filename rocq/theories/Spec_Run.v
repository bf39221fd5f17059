(* Specification vocabulary for running and recording graphs. *)
From Verif Require Export Model_Run Spec_Layout Spec_Record.
Local Open Scope N_scope.

(* ---- C33 ---- *)
(* Position of the first pair with this semaphore, and the mask of that pair. *)
Fixpoint first_position (s : N) (l : list (N * N)) : option nat :=
  match l with
  | [] => None
  | (s', _) :: r => if N.eqb s s' then Some O else option_map S (first_position s r)
  end.
Fixpoint first_mask (s : N) (l : list (N * N)) : option N :=
  match l with
  | [] => None
  | (s', m) :: r => if N.eqb s s' then Some m else first_mask s r
  end.

(* ---- C34 ---- *)
(* In the calls made to the device, no vkResetFences happens while a submission with this fence was made
   and its completion not awaited. *)
Fixpoint resets_safe (pending : bool) (l : list dcall) : Prop :=
  match l with
  | [] => True
  | DResetFence :: r => pending = false /\ resets_safe false r
  | DSubmit :: r => resets_safe true r
  | DWait true :: r => resets_safe false r
  | _ :: r => resets_safe pending r
  end.

(* The history can happen: a wait without timeout returns only if the fence is signalled or will be, and the
   user submits only with an unsignalled fence, as Vulkan requires. *)
Fixpoint possible (s : fence_status) (l : list dcall) : Prop :=
  match l with
  | [] => True
  | DResetFence :: r => possible Unsignalled r
  | DSubmit :: r => s = Unsignalled /\ possible InFlight r
  | DWait true :: r => s <> Unsignalled /\ possible Signalled r
  | _ :: r => possible s r
  end.

(* ---- C57: life cycle of a fence and of a one time submit command buffer (Vulkan specification) ---- *)
Record dev := { d_fence : fence_status; d_cb : cb_status }.
Definition dev_step (d : dev) (c : dcall) : option dev :=
  match c with
  | DResetFence => match d_fence d with InFlight => None | _ => Some {| d_fence := Unsignalled; d_cb := d_cb d |} end
  | DWait true =>
      match d_fence d with
      | Unsignalled => None    (* nothing will ever signal it *)
      | Signalled => Some d
      | InFlight => Some {| d_fence := Signalled; d_cb := match d_cb d with PendingCB => Invalid | s => s end |}
      end
  | DWait false => Some d
  | DResetCommandBuffer => match d_cb d with PendingCB => None | _ => Some {| d_fence := d_fence d; d_cb := Initial |} end
  | DBegin => match d_cb d with PendingCB | Recording => None | _ => Some {| d_fence := d_fence d; d_cb := Recording |} end
  | DEnd => match d_cb d with Recording => Some {| d_fence := d_fence d; d_cb := Executable |} | _ => None end
  | DSubmit => match d_cb d, d_fence d with
               | Executable, Unsignalled => Some {| d_fence := InFlight; d_cb := PendingCB |}
               | _, _ => None
               end
  end.
Fixpoint dev_run (d : dev) (l : list dcall) : option dev :=
  match l with
  | [] => Some d
  | c :: r => match dev_step d c with Some d' => dev_run d' r | None => None end
  end.
(* After the constructor of the runnable graph: the fence is created signalled, the command buffer was begun and ended. *)
Definition dev_start : dev := {| d_fence := Signalled; d_cb := Executable |}.

(* ---- C50 ---- *)
(* The callbacks of a pass (record, pre and post pass actions, implicit actions) leave the pipeline
   states of the record context alone. *)
Definition keeps_states (f : rctx -> nat -> rctx * list cmd) : Prop :=
  forall c i, rc_prevState (fst (f c i)) = rc_prevState c /\ rc_currState (fst (f c i)) = rc_currState c /\
              rc_nextState (fst (f c i)) = rc_nextState c.
Definition pass_keeps_states (p : rpass) : Prop :=
  keeps_states (rp_record p) /\ Forall keeps_states (rp_pre p) /\ Forall keeps_states (rp_post p).
Definition env_keeps_states (e : env) : Prop := forall k, keeps_states (e_action e k).

(* ---- C37 ---- *)
(* What the attachments of a pass ask for, in declaration order: a plain view and the state it must be in. *)
Definition declared (separate : bool) (p : rpass) : list (view * lstate) :=
  flat_map (fun a => flat_map (fun v => map (fun s => (s,
     mk_lstate (a_getImageLayout a separate) (a_getAccessMask a) (a_getPipelineStageFlags a (rp_compute p)))) (resolve_all v))
     (attach_views a)) (rp_images p).
Definition covers (v : view) (k layer mip : N) : bool :=
  andb (N.eqb (i_id (v_image v)) k) (in_rangeb (getVirtualRange (v_image v) (v_type v) (v_range v)) layer mip).
(* The state the pass needs one subresource of image [k] to be in: the last declaration covering it. *)
Definition needs (separate : bool) (p : rpass) (k layer mip : N) : option lstate :=
  fold_left (fun acc vs => if covers (fst vs) k layer mip then Some (snd vs) else acc) (declared separate p) None.
Definition uses_layer (separate : bool) (p : rpass) (k layer : N) : Prop := exists mip s, needs separate p k layer mip = Some s.
(* Both passes use a common layer of image [k]. *)
Definition share_layer (separate : bool) (p q : rpass) (k : N) : Prop :=
  exists layer, uses_layer separate p k layer /\ uses_layer separate q k layer.
(* Every declared range is non empty and does not wrap. *)
Definition valid_views (separate : bool) (p : rpass) : Prop :=
  forall v s, In (v, s) (declared separate p) -> valid_range (getVirtualRange (v_image v) (v_type v) (v_range v)).

(* The pass needs some subresource of the view, and the first enabled pass of a list that does. *)
Definition needs_part (separate : bool) (p : rpass) (v : view) : Prop :=
  exists layer mip s, covers v (i_id (v_image v)) layer mip = true /\ needs separate p (i_id (v_image v)) layer mip = Some s.
(* Every subresource of the view the pass needs, it needs in this layout. *)
Definition needs_in (separate : bool) (p : rpass) (v : view) (layout : N) : Prop :=
  forall layer mip s, covers v (i_id (v_image v)) layer mip = true -> needs separate p (i_id (v_image v)) layer mip = Some s -> ls_layout s = layout.
Definition first_consumer (e : env) (rest : list rpass) (v : view) (q : rpass) : Prop :=
  exists before after, rest = before ++ q :: after /\ e_enabled e (rp_id q) = true /\ needs_part (e_separate e) q v /\
    forall b, In b before -> e_enabled e (rp_id b) = true -> ~ needs_part (e_separate e) b v.
(* What a pass sees while it is recorded: [trace_of e g deps passes] lists, in recording order, each pass with the
   record context it is given. *)
Definition trace_of (e : env) (g : rgraph) (deps : list rctx) (passes : list rpass) : list (rpass * rctx * N) :=
  snd (record_graph e g deps passes).
(* The first enabled pass of a list. *)
Definition next_enabled_pass (e : env) (l : list rpass) : option rpass := find (fun p => e_enabled e (rp_id p)) l.
