(* Model of RecordContext and of the recording of one pass.
   Sources: source/RenderGraph/RecordContext.cpp, source/RenderGraph/RunnablePass.cpp:22-59, 245-299, 363-501,
   source/RenderGraph/RunnableGraph.cpp:417-447. *)
From Verif Require Export Model_Attach.
Local Open Scope N_scope.

(* The operations of a VkAttachmentDescription: load and store of the colour or depth aspect, load and store of the stencil aspect. *)
Record tops := { to_load : N; to_store : N; to_sload : N; to_sstore : N }.

(* Commands written to the command buffer. *)
Inductive cmd :=
| CImageBarrier (image : N) (r : srange) (srcStage dstStage srcAccess dstAccess oldLayout newLayout : N)
| CBufferBarrier (buffer offset size : N) (srcStage dstStage srcAccess dstAccess : N)
| CClearColour (image layout : N) (r : srange)
| CClearDepthStencil (image layout : N) (r : srange)
| CFill (buffer offset size : N)
| CCopyImage (src srcLayout dst dstLayout : N) (srcSub dstSub : srange) (w h : N)
| CBlitImage (src srcLayout dst dstLayout : N) (srcSub dstSub : srange) (s0 s1 d0 d1 : N * N * N) (filter : N)
| CBeginBlock (pass : N) | CEndBlock
| CTimerBegin (pass : N) | CTimerEnd (pass : N)
| CUser (tag : N)
(* written by the bodies of the passes of RunnablePasses/ *)
| CCopyRegion (src srcLayout dst dstLayout : N) (srcSub dstSub : srange) (srcOffset dstOffset extent : N * N * N)
| CCopyBuffer (src dst srcOffset dstOffset size : N)
| CBufferToImage (buffer bufferOffset image layout : N) (sub : srange) (offset extent : N * N * N)
| CImageToBuffer (image layout : N) (sub : srange) (buffer bufferOffset : N) (offset extent : N * N * N)
| CBindPipeline (pipeline : N) | CBindSet (set : N)
| CDispatch (x y z : N) | CDispatchIndirect (buffer offset : N)
| CBindVertexBuffer (buffer : N) | CBindIndexBuffer (buffer : N)
| CDraw (vertices instances : N) | CDrawIndexed (indices instances : N)
| CDrawIndirect (buffer offset stride : N) | CDrawIndexedIndirect (buffer offset stride : N)
(* the attachments of the render pass and of its framebuffer: view, initial layout, final layout, operations *)
| CBeginRenderPass (attaches : list (view * N * N * tops)) | CEndRenderPass (attaches : list (view * N * N * tops)).

(* RecordContext::ImplicitAction: the three kinds made by RecordContext (RecordContext.cpp:385-600), and
   any other function of the user, designated by a number. *)
Inductive action :=
| ACopy (src dst : view) (w h final : N)
| ABlit (src dst : view) (srcOffset srcExtent dstOffset dstExtent : N * N) (filter final : N)
| AClear (views : list view) (final : N)
| AUser (tag : N).

(* RecordContext.hpp: the members.  Simplification: the resources cache and the handler are not
   represented; objects they create are named by their identifier. *)
Record rctx := {
  rc_images : handler; rc_next : handler; rc_buffers : nmap pstate;
  rc_implicit : list (N * view * action);
  rc_prevState : pstate; rc_currState : pstate; rc_nextState : pstate }.
Definition set_images (c : rctx) (h : handler) : rctx :=
  {| rc_images := h; rc_next := rc_next c; rc_buffers := rc_buffers c; rc_implicit := rc_implicit c;
     rc_prevState := rc_prevState c; rc_currState := rc_currState c; rc_nextState := rc_nextState c |}.
Definition set_buffers (c : rctx) (b : nmap pstate) : rctx :=
  {| rc_images := rc_images c; rc_next := rc_next c; rc_buffers := b; rc_implicit := rc_implicit c;
     rc_prevState := rc_prevState c; rc_currState := rc_currState c; rc_nextState := rc_nextState c |}.
Definition set_implicit (c : rctx) (l : list (N * view * action)) : rctx :=
  {| rc_images := rc_images c; rc_next := rc_next c; rc_buffers := rc_buffers c; rc_implicit := l;
     rc_prevState := rc_prevState c; rc_currState := rc_currState c; rc_nextState := rc_nextState c |}.

Definition bottom_state : pstate := {| ps_access := 0; ps_stage := S_BOTTOM |}.
(* RecordContext.cpp:49-56: constructor *)
Definition new_rctx : rctx :=
  {| rc_images := []; rc_next := []; rc_buffers := []; rc_implicit := [];
     rc_prevState := bottom_state; rc_currState := bottom_state; rc_nextState := bottom_state |}.

(* RecordContext.cpp:64-77: addStates *)
Definition rc_addStates (c data : rctx) : rctx :=
  {| rc_images := addStates (rc_images c) (rc_images data); rc_next := rc_next c;
     rc_buffers := fold_left (fun acc e => minsert (fst e) (snd e) acc) (rc_buffers data) (rc_buffers c);
     rc_implicit := rc_implicit c;
     rc_prevState := if N.ltb (ps_access (rc_prevState c)) (ps_access (rc_currState data)) then rc_currState data else rc_prevState c;
     rc_currState := rc_currState c; rc_nextState := rc_nextState c |}.

(* RecordContext.cpp:79-86: setNextPipelineState *)
Definition setNextPipelineState (c : rctx) (s : pstate) (layouts : handler) : rctx :=
  {| rc_images := rc_images c; rc_next := layouts; rc_buffers := rc_buffers c; rc_implicit := rc_implicit c;
     rc_prevState := rc_currState c; rc_currState := rc_nextState c; rc_nextState := s |}.

(* RecordContext.cpp:27-44: adaptRange *)
Definition adaptRange (separate : bool) (format : N) (r : srange) : srange :=
  if andb (negb separate) (andb (isDepthStencilFormat format) (orb (N.eqb (r_aspect r) ASPECT_DEPTH) (N.eqb (r_aspect r) ASPECT_STENCIL)))
  then {| r_aspect := N.lor ASPECT_DEPTH ASPECT_STENCIL; r_mip := r_mip r; r_levels := r_levels r; r_layer := r_layer r; r_layers := r_layers r |}
  else r.

(* RecordContext.cpp:100-110, 112-119: setLayoutState, getLayoutState (image, view type, range) *)
Definition rc_setLayoutState (c : rctx) (im : image) (vt : N) (r : srange) (s : lstate) : rctx :=
  set_images c (setLayoutState (rc_images c) im vt r s).
Definition rc_getLayoutState (c : rctx) (im : image) (vt : N) (r : srange) : lstate :=
  getLayoutState (rc_images c) im vt r.

(* RecordContext.cpp:219-272: memoryBarrier on an image.  Optional initial layout: the overloads of
   RecordContext.cpp:274-317 give UNDEFINED, those of 188-217 take image, type and range from a view. *)
Definition memoryBarrier (separate : bool) (c : rctx) (im : image) (vt : N) (r0 : srange) (initialLayout : N) (wanted : lstate) (force : bool) : rctx * list cmd :=
  let r := adaptRange separate (i_format im) r0 in
  let from0 := rc_getLayoutState c im vt r in
  let from := if N.eqb (ls_layout from0) L_UNDEFINED then makeLayoutState initialLayout else from0 in
  if orb force (andb (orb (negb (N.eqb (ls_layout from) (ls_layout wanted)))
                          (negb (N.eqb (ps_stage (ls_state from)) (ps_stage (ls_state wanted)))))
                     (negb (N.eqb (ls_layout wanted) L_UNDEFINED)))
  then (rc_setLayoutState c im vt r wanted,
        [CImageBarrier (i_id im) r (ps_stage (ls_state from)) (ps_stage (ls_state wanted))
           (ps_access (ls_state from)) (ps_access (ls_state wanted)) (ls_layout from) (ls_layout wanted)])
  else (c, []).
(* RecordContext.cpp:188-201 *)
Definition memoryBarrier_view (separate : bool) (c : rctx) (v : view) (initialLayout : N) (wanted : lstate) : rctx * list cmd :=
  memoryBarrier separate c (v_image v) (v_type v) (v_range v) initialLayout wanted false.

(* RecordContext.cpp:169-186: setAccessState, getAccessState (the range is ignored) *)
Definition getAccessState (c : rctx) (buffer : N) : pstate :=
  match mfind buffer (rc_buffers c) with Some s => s | None => bottom_state end.

(* RecordContext.cpp:319-361: memoryBarrier on a buffer *)
Definition bufferBarrier (c : rctx) (buffer offset size initialMask initialStage : N) (wanted : pstate) (force : bool) : rctx * list cmd :=
  let from0 := getAccessState c buffer in
  let from := if N.eqb (ps_stage from0) S_BOTTOM then {| ps_access := initialMask; ps_stage := initialStage |} else from0 in
  if orb force (orb (negb (N.eqb (ps_access from) (ps_access wanted))) (negb (N.eqb (ps_stage from) (ps_stage wanted))))
  then (set_buffers c (mput buffer wanted (rc_buffers c)),
        [CBufferBarrier buffer offset size (ps_stage from) (ps_stage wanted) (ps_access from) (ps_access wanted)])
  else (c, []).

(* What surrounds the recording: the separateDepthStencilLayouts feature, the pass enabled states and
   the functions of the user implicit actions. *)
Record env := { e_separate : bool; e_enabled : N -> bool; e_action : N -> rctx -> nat -> rctx * list cmd }.

(* RecordContext.cpp:128-143: registerImplicitTransition *)
Definition registerImplicit (c : rctx) (pass : N) (v : view) (a : action) : rctx :=
  set_implicit c (rc_implicit c ++ [(pass, v, a)]).

(* std::find_if and erase of the first registration for the view *)
Fixpoint take_first (v : N) (l : list (N * view * action)) : option (N * action * list (N * view * action)) :=
  match l with
  | [] => None
  | (p, w, a) :: r =>
      if N.eqb (v_id w) v then Some (p, a, r)
      else match take_first v r with Some (p', a', r') => Some (p', a', (p, w, a) :: r') | None => None end
  end.

Definition barrier_to (e : env) (c : rctx) (v : view) (layout : N) : rctx * list cmd :=
  memoryBarrier (e_separate e) c (v_image v) (v_type v) (v_range v) L_UNDEFINED (makeLayoutState layout) false.
Definition final_barrier (e : env) (c : rctx) (v : view) (final : N) : rctx * list cmd :=
  if N.eqb final L_UNDEFINED then (c, []) else barrier_to e c v final.
(* VkImageSubresourceLayers with one layer, as a range *)
Definition first_sub (r : srange) : srange :=
  {| r_aspect := r_aspect r; r_mip := r_mip r; r_levels := 1; r_layer := r_layer r; r_layers := 1 |}.

Definition seq2 (x : rctx * list cmd) (f : rctx -> rctx * list cmd) : rctx * list cmd :=
  let '(c, l) := x in let '(c', l') := f c in (c', l ++ l').
Notation "x >>> f" := (seq2 x f) (at level 61, left associativity).
Definition emit (l : list cmd) (c : rctx) : rctx * list cmd := (c, l).

(* RecordContext.cpp:145-167: runImplicitTransition, with the actions of 385-432 (copyImage), 434-487
   (blitImage), 489-534 and 547-590 (clearAttachment).  copyImage and blitImage run the implicit
   transition of their source, after the registration was erased: the number of registrations bounds
   the depth ([fuel], see runImplicit). *)
Fixpoint runImplicit_fuel (fuel : nat) (e : env) (c : rctx) (index : nat) (v : view) : rctx * list cmd :=
  match take_first (v_id v) (rc_implicit c) with
  | None => (c, [])
  | Some (p, a, rest) =>
      let c := set_implicit c rest in
      if e_enabled e p then (c, [])
      else match fuel with
      | O => (c, [])
      | S fuel =>
        match a with
        | ACopy src dst w h final =>
            runImplicit_fuel fuel e c index src
            >>> (fun c => barrier_to e c src L_TRANSFER_SRC)
            >>> (fun c => barrier_to e c dst L_TRANSFER_DST)
            >>> emit [CCopyImage (i_id (v_image src)) L_TRANSFER_SRC (i_id (v_image dst)) L_TRANSFER_DST
                        (first_sub (v_range src)) (first_sub (v_range dst)) w h]
            >>> (fun c => final_barrier e c dst final)
        | ABlit src dst (sx, sy) (sw, sh) (dx, dy) (dw, dh) filter final =>
            runImplicit_fuel fuel e c index src
            >>> (fun c => barrier_to e c src L_TRANSFER_SRC)
            >>> (fun c => barrier_to e c dst L_TRANSFER_DST)
            >>> emit [CBlitImage (i_id (v_image src)) L_TRANSFER_SRC (i_id (v_image dst)) L_TRANSFER_DST
                        (first_sub (v_range src)) (first_sub (v_range dst)) (sx, sy, 0) (sw, sh, 1) (dx, dy, 0) (dw, dh, 1) filter]
            >>> (fun c => final_barrier e c dst final)
        | AClear views final =>
            let dst := match views with [x] => x | l => nth index l dummy_view end in
            barrier_to e c dst L_TRANSFER_DST
            >>> emit [if isColourFormat (v_format dst) then CClearColour (i_id (v_image dst)) L_TRANSFER_DST (v_range dst)
                      else CClearDepthStencil (i_id (v_image dst)) L_TRANSFER_DST (v_range dst)]
            >>> (fun c => final_barrier e c dst final)
        | AUser tag => e_action e tag c index
        end
      end
  end.
Definition runImplicit (e : env) (c : rctx) (index : nat) (v : view) : rctx * list cmd :=
  runImplicit_fuel (length (rc_implicit c)) e c index v.

(* The graph as seen by the recording: declared inputs and outputs, final state of the last recording. *)
Record rgraph := { g_inputs : handler; g_outputs : handler; g_final : rctx }.

(* RunnableGraph.cpp:417-447: getCurrentLayoutState *)
Definition getCurrentLayoutState (g : rgraph) (c : rctx) (im : image) (vt : N) (r : srange) : rctx * lstate :=
  let r0 := rc_getLayoutState c im vt r in
  if negb (N.eqb (ls_layout r0) L_UNDEFINED) then (c, r0)
  else
    let r1 := getLayoutState (g_inputs g) im vt r in
    if negb (N.eqb (ls_layout r1) L_UNDEFINED) then (rc_setLayoutState c im vt r r1, r1)
    else
      let r2 := rc_getLayoutState (g_final g) im vt r in
      if negb (N.eqb (ls_layout r2) L_UNDEFINED) then (rc_setLayoutState c im vt r r2, r2)
      else (c, r2).

(* RunnablePass.cpp:22-28: getAlignedSize *)
Definition u64_add (a b : N) : N := u64 (a + b).
Definition getAlignedSize (size align : N) : N :=
  let rem := size mod align in if N.eqb rem 0 then size else u64_add size (align - rem).
Definition WHOLE_SIZE : N := 2 ^ 64 - 1.

(* A runnable pass: the frame pass attachments, the configuration and the callbacks.
   [rp_record] stands for Callbacks::record, [rp_pre]/[rp_post] for the pre and post pass actions:
   arbitrary functions of the record context. *)
Record rpass := {
  rp_id : N; rp_images : list attach; rp_buffers : list attach; rp_index : nat;
  rp_compute : bool; rp_state : pstate;
  rp_record : rctx -> nat -> rctx * list cmd;
  rp_pre : list (rctx -> nat -> rctx * list cmd);
  rp_post : list (rctx -> nat -> rctx * list cmd);
  rp_implicit : list (view * action) }.

Definition transfer_dst_state : lstate := mk_lstate L_TRANSFER_DST A_TRANSFER_WRITE S_TRANSFER.

(* RunnablePass.cpp:392-447: one image attachment of recordInto *)
Definition record_image (e : env) (g : rgraph) (p : rpass) (a : attach) (c : rctx) : rctx * list cmd :=
  let v := attach_view a (rp_index p) in
  runImplicit e c (rp_index p) v >>> (fun c =>
  if andb (negb (isNoTransition a)) (orb (orb (isSampledView a) (isStorageView a)) (orb (isTransferView a) (isTransitionView a)))
  then
    let needed := makeLayoutState (a_getImageLayout a (e_separate e)) in
    let '(c, cur) := if isInput a then getCurrentLayoutState g c (v_image v) (v_type v) (v_range v)
                     else (c, makeLayoutState L_UNDEFINED) in
    if isClearableImage a
    then memoryBarrier_view (e_separate e) c v (ls_layout cur) transfer_dst_state
         >>> emit [if isColourFormat (v_format v) then CClearColour (i_id (v_image v)) L_TRANSFER_DST (v_range v)
                   else CClearDepthStencil (i_id (v_image v)) L_TRANSFER_DST (v_range v)]
         >>> (fun c => memoryBarrier_view (e_separate e) c v L_TRANSFER_DST needed)
    else memoryBarrier_view (e_separate e) c v (ls_layout cur) needed
  else (c, [])).

(* RunnablePass.cpp:449-482: one buffer attachment of recordInto *)
Definition record_buffer (p : rpass) (a : attach) (c : rctx) : rctx * list cmd :=
  if andb (negb (isNoTransition a)) (orb (isStorageBuffer a) (orb (isTransferBuffer a) (isTransitionBuffer a)))
  then
    let b := attach_buffer a (rp_index p) in
    let cur := getAccessState c b in
    let wanted := {| ps_access := a_getAccessMask a; ps_stage := a_getPipelineStageFlags a (rp_compute p) |} in
    if isClearableBuffer a
    then bufferBarrier c b (ba_offset a) (ba_size a) (ps_access cur) (ps_stage cur) {| ps_access := A_TRANSFER_WRITE; ps_stage := S_TRANSFER |} false
         >>> emit [CFill b (if N.eqb (ba_offset a) 0 then 0 else getAlignedSize (ba_offset a) 4)
                         (if N.eqb (ba_size a) WHOLE_SIZE then WHOLE_SIZE else getAlignedSize (ba_size a) 4)]
         >>> (fun c => bufferBarrier c b (ba_offset a) (ba_size a) A_TRANSFER_WRITE S_TRANSFER wanted false)
    else bufferBarrier c b (ba_offset a) (ba_size a) (ps_access cur) (ps_stage cur) wanted false
  else (c, []).

Definition run_all {A} (f : A -> rctx -> rctx * list cmd) (l : list A) (c : rctx) : rctx * list cmd :=
  fold_left (fun x a => x >>> f a) l (c, []).

Definition register_all (p : rpass) (c : rctx) : rctx :=
  fold_left (fun c va => registerImplicit c (rp_id p) (fst va) (snd va)) (rp_implicit p) c.

(* RunnablePass.cpp:363-501: recordInto.  Simplifications: the saved context of resettable passes (Model_Again.v), the
   initialise callback and the CPU timer are not represented; the GPU timer commands are two markers
   (see Model_Timer.v). *)
Definition recordInto (e : env) (g : rgraph) (p : rpass) (c : rctx) : rctx * list cmd :=
  let '(c, l) :=
    if e_enabled e (rp_id p)
    then (c, [CBeginBlock (rp_id p); CTimerBegin (rp_id p)])
         >>> run_all (record_image e g p) (rp_images p)
         >>> run_all (record_buffer p) (rp_buffers p)
         >>> run_all (fun f c => f c (rp_index p)) (rp_pre p)
         >>> (fun c => rp_record p c (rp_index p))
         >>> run_all (fun f c => f c (rp_index p)) (rp_post p)
         >>> emit [CTimerEnd (rp_id p); CEndBlock]
    else (c, []) in
  (register_all p c, l).
