(* Specification vocabulary: the accesses a pipeline stage can make, and barriers that name stages and accesses that go together. *)
From Verif Require Export Spec_Device.
Local Open Scope N_scope.

(* The table of supported access types of the Vulkan specification, for the stages the library uses: every stage can be given
   VK_ACCESS_MEMORY_READ_BIT, TOP_OF_PIPE, BOTTOM_OF_PIPE and HOST have no access of their own among those the library names. *)
Definition stage_bits : list (N * N) :=
  [(S_FRAGMENT, N.lor A_UNIFORM_READ (N.lor A_INPUT_ATTACHMENT_READ (N.lor A_SHADER_READ A_SHADER_WRITE)));
   (S_COMPUTE, N.lor A_UNIFORM_READ (N.lor A_SHADER_READ A_SHADER_WRITE));
   (S_LATE_TESTS, N.lor A_DS_READ A_DS_WRITE);
   (S_COLOR_OUTPUT, N.lor A_COLOR_READ A_COLOR_WRITE);
   (S_TRANSFER, N.lor A_TRANSFER_READ A_TRANSFER_WRITE);
   (S_SHADING_RATE, A_SHADING_RATE_READ)].
(* The bit numbers of an access mask are allowed by a mask of stages. *)
Definition stage_allows (stages access : N) : Prop :=
  forall k, N.testbit access k = true -> N.testbit A_MEMORY_READ k = true \/
    exists s a, In (s, a) stage_bits /\ N.land stages s = s /\ N.testbit a k = true.
(* A scope of a barrier: at least one stage, and only accesses these stages can make. *)
Definition scope_ok (stages access : N) : Prop := stages <> 0 /\ stage_allows stages access.
Definition barrier_ok (c : cmd) : Prop :=
  match c with
  | CImageBarrier _ _ srcStage dstStage srcAccess dstAccess _ _ => scope_ok srcStage srcAccess /\ scope_ok dstStage dstAccess
  | CBufferBarrier _ _ _ srcStage dstStage srcAccess dstAccess => scope_ok srcStage srcAccess /\ scope_ok dstStage dstAccess
  | _ => True
  end.
(* A barrier that starts from the GENERAL layout at the bottom of the pipe. *)
Definition from_general_bottom (c : cmd) : Prop :=
  match c with CImageBarrier _ _ srcStage _ _ _ old _ => old = L_GENERAL /\ srcStage = S_BOTTOM | _ => False end.

(* The stage of the accesses to an image in a layout. *)
Definition layout_stage (layout : N) : N :=
  if N.eqb layout L_COLOR_ATTACHMENT then S_COLOR_OUTPUT
  else if N.eqb layout L_SHADER_READ_ONLY then S_FRAGMENT
  else if orb (N.eqb layout L_TRANSFER_SRC) (N.eqb layout L_TRANSFER_DST) then S_TRANSFER
  else if orb (N.eqb layout L_PRESENT_SRC) (N.eqb layout L_SHARED_PRESENT) then S_BOTTOM
  else if N.eqb layout L_SHADING_RATE then S_SHADING_RATE
  else if existsb (N.eqb layout) [L_DEPTH_STENCIL_ATTACHMENT; L_DEPTH_STENCIL_READ_ONLY; L_DEPTH_RO_STENCIL_ATT; L_DEPTH_ATT_STENCIL_RO;
                                  L_DEPTH_ATTACHMENT; L_DEPTH_READ_ONLY; L_STENCIL_ATTACHMENT; L_STENCIL_READ_ONLY] then S_LATE_TESTS
  else 0.
(* The layouts the library has stages and accesses for. *)
Definition handled (layout : N) : Prop :=
  In layout [L_UNDEFINED; L_GENERAL; L_COLOR_ATTACHMENT; L_DEPTH_STENCIL_ATTACHMENT; L_DEPTH_STENCIL_READ_ONLY; L_SHADER_READ_ONLY; L_TRANSFER_SRC; L_TRANSFER_DST;
             L_PRESENT_SRC; L_SHARED_PRESENT; L_DEPTH_RO_STENCIL_ATT; L_DEPTH_ATT_STENCIL_RO; L_SHADING_RATE].
(* A state that goes with its layout. *)
Definition coherent (s : lstate) : Prop :=
  let a := ps_access (ls_state s) in let st := ps_stage (ls_state s) in
  if N.eqb (ls_layout s) L_UNDEFINED then a = 0 /\ st <> 0
  else if N.eqb (ls_layout s) L_GENERAL then (st = S_BOTTOM \/ st = S_COMPUTE \/ st = S_FRAGMENT) /\ N.land a (N.lor A_SHADER_READ A_SHADER_WRITE) = a
  else st = layout_stage (ls_layout s) /\ scope_ok st a.
(* All that a context, a graph or a render pass knows is coherent. *)
Definition coherent_handler (h : handler) : Prop :=
  forall q m layer l mip s, mfind q h = Some m -> mfind layer m = Some l -> mfind mip l = Some s -> coherent s.
(* An implicit action whose final layout is handled. *)
Definition final_ok (a : action) : Prop :=
  match a with ACopy _ _ _ _ final | ABlit _ _ _ _ _ _ _ final | AClear _ final => handled final | AUser _ => True end.
Definition coherent_context (c : rctx) : Prop :=
  coherent_handler (rc_images c) /\ coherent_handler (rc_next c) /\ (forall b s, mfind b (rc_buffers c) = Some s -> scope_ok (ps_stage s) (ps_access s)) /\
  (forall p w a, In (p, w, a) (rc_implicit c) -> final_ok a).
Definition coherent_graph (g : rgraph) : Prop :=
  coherent_handler (g_inputs g) /\ coherent_handler (g_outputs g) /\ coherent_context (g_final g).
Definition coherent_target (t : target) : Prop :=
  forall i x, In x (rd_entries (pass_data t i)) -> coherent (en_input x) /\ coherent (en_output x).

(* Attachments made by the declaration methods, with layouts and states that are handled. *)
Definition declared (a : attach) : Prop :=
  (exists m pass views binding wanted flag misc, a = declare_image m pass views binding wanted flag misc /\ (img_usage m = Implicit -> handled wanted)).
Definition declared_buffer (a : attach) : Prop :=
  exists m pass bufs binding bview off size wanted flag, a = declare_buffer m pass bufs binding bview off size wanted flag /\ hasFlag flag AF_Image = false /\
    (buffer_usage m = BImplicit -> scope_ok (ps_stage wanted) (ps_access wanted)).
(* Callbacks that keep the context coherent and record only barriers that are right. *)
Definition fair (c : cmd) : Prop := barrier_ok c \/ from_general_bottom c.
Definition coherent_body (f : rctx -> nat -> rctx * list cmd) : Prop := forall c i, coherent_context c ->
  coherent_context (fst (f c i)) /\ Forall fair (snd (f c i)).
Definition coherent_pass (p : rpass) : Prop :=
  (forall a, In a (rp_images p) -> declared a) /\ (forall a, In a (rp_buffers p) -> declared_buffer a) /\
  (forall f, In f (rp_pre p) \/ In f (rp_post p) \/ f = rp_record p -> coherent_body f) /\
  (forall w a, In (w, a) (rp_implicit p) -> final_ok a).
Definition coherent_env (e : env) : Prop := forall tag, coherent_body (e_action e tag).

(* What each layout is for: the accesses of an image brought in it, in the terms of the Vulkan enumeration. *)
Definition layout_access (layout : N) : N :=
  if N.eqb layout L_COLOR_ATTACHMENT then A_COLOR_WRITE
  else if N.eqb layout L_SHADER_READ_ONLY then A_SHADER_READ
  else if N.eqb layout L_TRANSFER_SRC then A_TRANSFER_READ
  else if N.eqb layout L_TRANSFER_DST then A_TRANSFER_WRITE
  else if N.eqb layout L_DEPTH_STENCIL_ATTACHMENT then A_DS_WRITE
  else if N.eqb layout L_DEPTH_STENCIL_READ_ONLY then A_DS_READ
  else if existsb (N.eqb layout) [L_DEPTH_RO_STENCIL_ATT; L_DEPTH_ATT_STENCIL_RO] then N.lor A_DS_READ A_DS_WRITE
  else if existsb (N.eqb layout) [L_PRESENT_SRC; L_SHARED_PRESENT] then A_MEMORY_READ
  else if N.eqb layout L_SHADING_RATE then A_SHADING_RATE_READ
  else 0.

(* The formats of Vulkan with a depth aspect, with a stencil aspect (VK_FORMAT_D16_UNORM = 124 to VK_FORMAT_D32_SFLOAT_S8_UINT = 130,
   VK_FORMAT_S8_UINT = 127 being the one without depth). *)
Definition has_depth (format : N) : Prop := 124 <= format <= 130 /\ format <> 127.
Definition has_stencil (format : N) : Prop := 127 <= format <= 130.

(* A mask of exactly one bit. *)
Definition one_bit (x : N) : Prop := exists k, x = 2 ^ k.
