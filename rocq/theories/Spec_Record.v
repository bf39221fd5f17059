(* Specification vocabulary for recording. *)
From Verif Require Export Model_Record Spec_Attach.
Local Open Scope N_scope.

(* What the record context knows about one subresource of an image. *)
Definition subresource_state (c : rctx) (im layer mip : N) : option lstate :=
  match mfind im (rc_images c) with Some m => tracked m layer mip | None => None end.

(* The state considered as the current one by a barrier: the known one, else the one of the given initial layout. *)
Definition known_state (c : rctx) (im : image) (vt : N) (r : srange) (initialLayout : N) : lstate :=
  let s := rc_getLayoutState c im vt r in
  if N.eqb (ls_layout s) L_UNDEFINED then makeLayoutState initialLayout else s.
Definition known_access (c : rctx) (b initialMask initialStage : N) : pstate :=
  match mfind b (rc_buffers c) with
  | Some s => if N.eqb (ps_stage s) S_BOTTOM then {| ps_access := initialMask; ps_stage := initialStage |} else s
  | None => {| ps_access := initialMask; ps_stage := initialStage |}
  end.

Definition in_rangeb (r : srange) (layer mip : N) : bool :=
  andb (andb (N.leb (r_layer r) layer) (N.ltb layer (r_layer r + r_layers r)))
       (andb (N.leb (r_mip r) mip) (N.ltb mip (r_mip r + r_levels r))).

(* The layout the recorded commands put a subresource in: the new layout of the last barrier covering it. *)
Fixpoint real_layout (cmds : list cmd) (im layer mip : N) : option N :=
  match cmds with
  | [] => None
  | c :: rest =>
      match real_layout rest im layer mip with
      | Some l => Some l
      | None => match c with
                | CImageBarrier i r _ _ _ _ _ new => if andb (N.eqb i im) (in_rangeb r layer mip) then Some new else None
                | _ => None
                end
      end
  end.
Definition old_layout (c : cmd) : option N := match c with CImageBarrier _ _ _ _ _ _ o _ => Some o | _ => None end.

(* A history of image barrier requests. *)
Record request := { q_image : image; q_type : N; q_range : srange; q_initial : N; q_wanted : lstate; q_force : bool }.
Definition do_request (separate : bool) (c : rctx) (q : request) : rctx * list cmd :=
  memoryBarrier separate c (q_image q) (q_type q) (q_range q) (q_initial q) (q_wanted q) (q_force q).
Definition do_requests (separate : bool) (c : rctx) (qs : list request) : rctx * list cmd :=
  run_all (fun q c => do_request separate c q) qs c.
Definition request_ok (q : request) : Prop := valid_range (q_range q) /\ q_type q <> VT_3D /\ ls_layout (q_wanted q) <> L_UNDEFINED.
(* Any two ranges used on an image are the same or have nothing in common. *)
Definition partitioned (qs : list request) : Prop :=
  forall q q', In q qs -> In q' qs -> i_id (q_image q) = i_id (q_image q') ->
    (forall layer mip, in_range (q_range q) layer mip <-> in_range (q_range q') layer mip)
    \/ disjoint_ranges (q_range q) (q_range q').

(* Registrations and runs of implicit actions. *)
Inductive implicit_op := Register (pass : N) (v : view) (tag : N) | Run (v : view).
(* The specification: one queue per view. *)
Definition queues := N -> list (N * N).
Definition spec_step (enabled : N -> bool) (q : queues) (o : implicit_op) : queues * list N :=
  match o with
  | Register p v tag => (fun w => if N.eqb w (v_id v) then q w ++ [(p, tag)] else q w, [])
  | Run v => match q (v_id v) with
             | [] => (q, [])
             | (p, tag) :: rest => (fun w => if N.eqb w (v_id v) then rest else q w, if enabled p then [] else [tag])
             end
  end.
Fixpoint spec_trace (enabled : N -> bool) (q : queues) (ops : list implicit_op) : list (list N) :=
  match ops with [] => [] | o :: r => snd (spec_step enabled q o) :: spec_trace enabled (fst (spec_step enabled q o)) r end.
(* The code: each user action writes one command with its tag. *)
Definition tag_env (separate : bool) (enabled : N -> bool) : env :=
  {| e_separate := separate; e_enabled := enabled; e_action := fun tag c _ => (c, [CUser tag]) |}.
Definition impl_step (e : env) (c : rctx) (o : implicit_op) : rctx * list cmd :=
  match o with
  | Register p v tag => (registerImplicit c p v (AUser tag), [])
  | Run v => runImplicit e c 0 v
  end.
Fixpoint impl_trace (e : env) (c : rctx) (ops : list implicit_op) : list (list cmd) :=
  match ops with [] => [] | o :: r => snd (impl_step e c o) :: impl_trace e (fst (impl_step e c o)) r end.

(* Nesting of debug blocks. *)
Fixpoint nest (depth : nat) (l : list cmd) : option nat :=
  match l with
  | [] => Some depth
  | CBeginBlock _ :: r => nest (S depth) r
  | CEndBlock :: r => match depth with O => None | S d => nest d r end
  | _ :: r => nest depth r
  end.
Definition balanced (l : list cmd) : Prop := forall d, nest d l = Some d.
Definition balanced_fun (f : rctx -> nat -> rctx * list cmd) : Prop := forall c i, balanced (snd (f c i)).

(* The image attachments for which recordInto makes a transition. *)
Definition has_transition (a : attach) : bool :=
  andb (negb (isNoTransition a)) (orb (orb (isSampledView a) (isStorageView a)) (orb (isTransferView a) (isTransitionView a))).
Definition separate_views (v w : view) : Prop := i_id (v_image v) <> i_id (v_image w) \/ disjoint_ranges (v_range v) (v_range w).
Inductive pairwise {A} (R : A -> A -> Prop) : list A -> Prop :=
| pw_nil : pairwise R []
| pw_cons x l : (forall y, In y l -> R x y /\ R y x) -> pairwise R l -> pairwise R (x :: l).
Definition view_ok (v : view) : Prop := valid_range (v_range v) /\ v_type v <> VT_3D.
(* The layout the record context knows for a view. *)
Definition known_layout (c : rctx) (v : view) : N := ls_layout (rc_getLayoutState c (v_image v) (v_type v) (v_range v)).

(* The aspect of a barrier: depth and stencil together when the device has no separate layouts for them. *)
Definition barrier_aspect (separate : bool) (format aspect : N) : N :=
  if andb (negb separate) (isDepthStencilFormat format)
  then if orb (N.eqb aspect ASPECT_DEPTH) (N.eqb aspect ASPECT_STENCIL) then N.lor ASPECT_DEPTH ASPECT_STENCIL else aspect
  else aspect.
(* Some image barrier, some buffer barrier. *)
Definition is_image_barrier (c : cmd) : bool := match c with CImageBarrier _ _ _ _ _ _ _ _ => true | _ => false end.
Definition is_buffer_barrier (c : cmd) : bool := match c with CBufferBarrier _ _ _ _ _ _ _ => true | _ => false end.
Definition is_barrier (c : cmd) : bool := orb (is_image_barrier c) (is_buffer_barrier c).
(* A pass whose body is one marker. *)
Definition marker_pass (id : N) (images buffers : list attach) (compute : bool) : rpass :=
  {| rp_id := id; rp_images := images; rp_buffers := buffers; rp_index := 0; rp_compute := compute; rp_state := bottom_state;
     rp_record := fun c _ => (c, [CUser id]); rp_pre := []; rp_post := []; rp_implicit := [] |}.
Definition record_all (e : env) (g : rgraph) (l : list rpass) (c : rctx) : rctx * list cmd := run_all (recordInto e g) l c.
(* No barrier at all between the bodies of passes p and q. *)
Definition no_barrier_between (p q : N) (cmds : list cmd) : Prop :=
  exists l1 mid l2, cmds = l1 ++ CUser p :: mid ++ CUser q :: l2 /\ forallb (fun c => negb (is_barrier c)) mid = true.
