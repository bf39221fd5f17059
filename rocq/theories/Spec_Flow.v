(* Specification vocabulary: the contents of a region of an image, and the commands that discard or overwrite them. *)
From Verif Require Export Spec_Device Spec_Target Spec_Attach.
Local Open Scope N_scope.

(* A range of an image has nothing in common with a view. *)
Definition elsewhere (im : N) (r : srange) (v : view) : Prop :=
  im <> i_id (v_image v) \/ forall layer mip, in_range r layer mip -> ~ in_range (v_range v) layer mip.
(* What the operations of an attachment do to its contents, aspect by aspect: the first two are for the colour or the depth, the others
   for the stencil. *)
Definition has_stencil (w : view) : Prop := In (v_format w) [F_S8; F_D16_S8; F_D24_S8; F_D32_S8].
Definition has_main (w : view) : Prop := v_format w <> F_S8.   (* colour or depth *)
Definition loads (w : view) (o : tops) : Prop :=
  (has_main w -> to_load o = LO_LOAD) /\ (has_stencil w -> to_sload o = LO_LOAD).
Definition stores (w : view) (o : tops) : Prop :=
  (has_main w -> to_store o = SO_STORE) /\ (has_stencil w -> to_sstore o = SO_STORE).
(* The operations an attachment was declared with. *)
Definition declared_ops (a : attach) : tops := {| to_load := ia_load a; to_store := ia_store a; to_sload := ia_sload a; to_sstore := ia_sstore a |}.
(* A command that neither discards nor overwrites the contents of a view: a barrier discards them when it says that the old layout is
   UNDEFINED, the beginning of a render pass when it says so or does not load them, its end when it does not store them.  Draws and dispatches are not considered: they write what the
   shaders of the user write. *)
Definition preserves (v : view) (c : cmd) : Prop :=
  match c with
  | CImageBarrier im r _ _ _ _ old _ => elsewhere im r v \/ old <> L_UNDEFINED
  | CClearColour im _ r | CClearDepthStencil im _ r => elsewhere im r v
  | CCopyImage _ _ dst _ _ ds _ _ => elsewhere dst ds v
  | CBlitImage _ _ dst _ _ ds _ _ _ _ _ => elsewhere dst ds v
  | CCopyRegion _ _ dst _ _ ds _ _ _ => elsewhere dst ds v
  | CBufferToImage _ _ im _ sub _ _ => elsewhere im sub v
  | CBeginRenderPass infos => forall w initial final ops, In (w, initial, final, ops) infos ->
      elsewhere (i_id (v_image w)) (v_range w) v \/ (initial <> L_UNDEFINED /\ loads w ops)
  | CEndRenderPass infos => forall w initial final ops, In (w, initial, final, ops) infos ->
      elsewhere (i_id (v_image w)) (v_range w) v \/ stores w ops
  | _ => True
  end.

(* What is known of a view: its layout was established by the recording itself ([own]), or also by the declared inputs and the previous
   recording. *)
Definition aware (own : bool) (g : rgraph) (v : view) (c : rctx) : Prop :=
  if own then known_layout c v <> L_UNDEFINED else said g c v <> L_UNDEFINED.
(* A callback that, when the view is known, neither discards nor overwrites its contents, does not make it unknown, and registers no
   implicit action. *)
Definition careful_at (own : bool) (g : rgraph) (v : view) (i : nat) (f : rctx -> nat -> rctx * list cmd) : Prop := forall c, aware own g v c ->
  Forall (preserves v) (snd (f c i)) /\ aware own g v (fst (f c i)) /\ incl (rc_implicit (fst (f c i))) (rc_implicit c).

Definition near (v w : view) : Prop := view_ok w /\ (same_region w v \/ separate_views w v).
(* An implicit action that does not write the view.  It can read it when the recording has already used it. *)
Definition careful_action (own : bool) (e : env) (g : rgraph) (v : view) (i : nat) (a : action) : Prop :=
  match a with
  | ACopy src dst _ _ _ | ABlit src dst _ _ _ _ _ _ => near v src /\ (own = true \/ separate_views src v) /\ view_ok dst /\ separate_views dst v
  | AClear views _ => let dst := match views with [x] => x | l => nth i l dummy_view end in view_ok dst /\ separate_views dst v
  | AUser tag => careful_at own g v i (e_action e tag)
  end.
(* A pass that does not write the view except by draws and dispatches, and whose attachments are views of the region or have nothing in
   common with it: those of the region are not cleared before the pass; unless the recording has already used the view, they are inputs. *)
Definition careful_attaches (own : bool) (v : view) (p : rpass) : Prop :=
  forall a, In a (rp_images p) -> let w := attach_view a (rp_index p) in
    near v w /\ (has_transition a = true -> same_region w v -> isClearableImage a = false /\ (own = true \/ isInput a = true)).
Definition careful_before (own : bool) (g : rgraph) (v : view) (p : rpass) : Prop :=
  careful_attaches own v p /\ forall f, In f (rp_pre p) -> careful_at own g v (rp_index p) f.
Definition careful_pass (own : bool) (g : rgraph) (v : view) (p : rpass) : Prop :=
  careful_before own g v p /\ careful_at own g v (rp_index p) (rp_record p) /\ forall f, In f (rp_post p) -> careful_at own g v (rp_index p) f.
Definition careful_actions (own : bool) (e : env) (g : rgraph) (v : view) (running registering : list rpass) : Prop :=
  forall p q w a, In p running -> In q registering -> e_enabled e (rp_id p) = true -> In (w, a) (rp_implicit q) -> careful_action own e g v (rp_index p) a.

(* Callbacks that register no implicit action. *)
Definition quiet (f : rctx -> nat -> rctx * list cmd) : Prop := forall c i, incl (rc_implicit (fst (f c i))) (rc_implicit c).
Definition quiet_pass (p : rpass) : Prop := forall f, In f (rp_pre p) \/ In f (rp_post p) \/ f = rp_record p -> quiet f.
Definition quiet_env (e : env) : Prop := forall tag, quiet (e_action e tag).

(* A pass has an attachment on the region, that it declares with a layout. *)
Definition uses (e : env) (v : view) (p : rpass) : Prop :=
  exists a, In a (rp_images p) /\ same_region (attach_view a (rp_index p)) v /\ has_transition a = true /\ a_getImageLayout a (e_separate e) <> L_UNDEFINED.
(* After the body of a pass the layout of the view is known: the view is an attachment of the pass and the body does not make it unknown,
   or the body tells it in all cases (a render pass does). *)
Definition tells (v : view) (p : rpass) : Prop := forall c, known_layout (fst (rp_record p c (rp_index p))) v <> L_UNDEFINED.
Definition remembers (v : view) (p : rpass) (f : rctx -> nat -> rctx * list cmd) : Prop :=
  forall c, known_layout c v <> L_UNDEFINED -> known_layout (fst (f c (rp_index p))) v <> L_UNDEFINED.
Definition establishes (e : env) (v : view) (p : rpass) : Prop :=
  (uses e v p /\ (forall a, In a (rp_images p) -> near v (attach_view a (rp_index p))) /\
   (forall f, In f (rp_pre p) \/ f = rp_record p -> remembers v p f)) \/ tells v p.

(* Frames one after the other: in each one the passes are careful, and the view is used by an enabled pass or its layout is a declared input. *)
Definition frame_careful (g : rgraph) (v : view) (f : frame) : Prop :=
  let e := fr_env f in let passes := fr_passes f in
  quiet_env e /\ (forall p, In p passes -> quiet_pass p) /\
  (forall p, In p passes -> e_enabled e (rp_id p) = true -> careful_pass true g v p /\ careful_pass false g v p) /\
  careful_actions true e g v passes passes /\ careful_actions false e g v passes passes /\
  (input_layout g v <> L_UNDEFINED \/ exists p, In p passes /\ e_enabled e (rp_id p) = true /\ establishes e v p).
Fixpoint frames_careful (g : rgraph) (v : view) (l : list frame) : Prop :=
  match l with
  | [] => True
  | f :: rest => frame_careful g v f /\ frames_careful (fst (fst (record_graph (fr_env f) g (fr_deps f) (fr_passes f)))) v rest
  end.
(* The commands of all the frames. *)
Fixpoint frames_commands (g : rgraph) (l : list frame) : list cmd :=
  match l with
  | [] => []
  | f :: rest => let '(g', cmds, _) := record_graph (fr_env f) g (fr_deps f) (fr_passes f) in cmds ++ frames_commands g' rest
  end.

(* A method that declares a target names all the aspects of the view. *)
Definition names_aspects (m : image_method) (w : view) : Prop :=
  match img_usage m, img_aspects m with
  | Colour, _ | _, DepthOnly => ~ has_stencil w
  | _, StencilOnly => v_format w = F_S8
  | _, DepthAndStencil => True
  end.
(* The attachment was declared by such a method, as something the pass writes. *)
Definition declared_written (a : attach) (w : view) : Prop :=
  exists m pass views binding wanted flag misc, a = declare_image m pass views binding wanted flag misc /\
    target_method m = true /\ img_writes m = true /\ names_aspects m w.
