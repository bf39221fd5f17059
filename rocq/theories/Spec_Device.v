(* Specification vocabulary: a device that executes the recorded commands and keeps the real layout of every subresource.
   The layouts of the depth and stencil aspects of an image are considered as one. *)
From Verif Require Export Model_Passes Model_Target Spec_Run.
Local Open Scope N_scope.

(* The real layout of each subresource: image, layer, level. *)
Definition layouts := N -> N -> N -> N.
Definition in_layout (d : layouts) (image : N) (r : srange) (l : N) : Prop := forall layer mip, in_range r layer mip -> d image layer mip = l.
Definition view_in (d : layouts) (v : view) (l : N) : Prop := in_layout d (i_id (v_image v)) (v_range v) l.

(* The rules of Vulkan about layouts.  A barrier and a render pass give the real layout of the image or UNDEFINED;
   the other commands are given the real layout, and one that allows what they do. *)
Definition allowed_source (d : layouts) (image : N) (r : srange) (l : N) : Prop := (l = L_TRANSFER_SRC \/ l = L_GENERAL) /\ in_layout d image r l.
Definition allowed_target (d : layouts) (image : N) (r : srange) (l : N) : Prop := (l = L_TRANSFER_DST \/ l = L_GENERAL) /\ in_layout d image r l.
Definition legal (d : layouts) (c : cmd) : Prop :=
  match c with
  | CImageBarrier im r _ _ _ _ old new => (old = L_UNDEFINED \/ in_layout d im r old) /\ new <> L_UNDEFINED
  | CClearColour im l r | CClearDepthStencil im l r => allowed_target d im r l
  | CCopyImage src sl dst dl ss ds _ _ => allowed_source d src ss sl /\ allowed_target d dst ds dl
  | CBlitImage src sl dst dl ss ds _ _ _ _ _ => allowed_source d src ss sl /\ allowed_target d dst ds dl
  | CCopyRegion src sl dst dl ss ds _ _ _ => allowed_source d src ss sl /\ allowed_target d dst ds dl
  | CBufferToImage _ _ im l sub _ _ => allowed_target d im sub l
  | CImageToBuffer im l sub _ _ _ _ => allowed_source d im sub l
  | CBeginRenderPass infos =>
      forall v initial final load, In (v, initial, final, load) infos -> (initial = L_UNDEFINED \/ view_in d v initial) /\ final <> L_UNDEFINED
  | _ => True
  end.
(* What a command does to the layouts: a barrier, and the end of a render pass. *)
Definition put (d : layouts) (im : N) (r : srange) (l : N) : layouts :=
  fun i layer mip => if andb (N.eqb im i) (in_rangeb r layer mip) then l else d i layer mip.
Definition after (d : layouts) (c : cmd) : layouts :=
  match c with
  | CImageBarrier im r _ _ _ _ _ new => put d im r new
  | CEndRenderPass infos => fold_left (fun d (x : view * N * N * tops) => put d (i_id (v_image (fst (fst (fst x))))) (v_range (fst (fst (fst x)))) (snd (fst x))) infos d
  | _ => d
  end.
Definition after_all (d : layouts) (l : list cmd) : layouts := fold_left after l d.
Fixpoint all_legal (d : layouts) (l : list cmd) : Prop :=
  match l with [] => True | c :: r => legal d c /\ all_legal (after d c) r end.

(* Commands that need no layout and change none. *)
Definition neutral (c : cmd) : Prop := (forall d, legal d c) /\ forall d, after d c = d.
(* A callback that records such commands and leaves the record context as it is. *)
Definition neutral_fun (f : rctx -> nat -> rctx * list cmd) : Prop := forall c i, fst (f c i) = c /\ Forall neutral (snd (f c i)).

(* Two views of the same levels and layers of an image. *)
Definition same_region (v w : view) : Prop :=
  i_id (v_image v) = i_id (v_image w) /\ r_mip (v_range v) = r_mip (v_range w) /\ r_levels (v_range v) = r_levels (v_range w) /\
  r_layer (v_range v) = r_layer (v_range w) /\ r_layers (v_range v) = r_layers (v_range w).
(* A set of views cutting the images in regions: any two views are those of the same region, or have nothing in common.  Views of
   3D images and views made of other views are left out. *)
Definition regions (F : view -> Prop) : Prop :=
  (forall v, F v -> view_ok v /\ v_source v = []) /\ (forall v w, F v -> F w -> same_region v w \/ separate_views v w).

(* The layout the graph gives for a view when it is asked: the one of the recording, else the declared input, else the one of the
   previous recording; UNDEFINED when nothing is known. *)
Definition said (g : rgraph) (c : rctx) (v : view) : N := ls_layout (snd (getCurrentLayoutState g c (v_image v) (v_type v) (v_range v))).
(* Nothing false is said about a view. *)
Definition truthful (g : rgraph) (c : rctx) (d : layouts) (v : view) : Prop := said g c v = L_UNDEFINED \/ view_in d v (said g c v).

(* The views used by a pass at its index. *)
Definition pass_views (p : rpass) : list view := map (fun a => attach_view a (rp_index p)) (rp_images p).
(* The attachments of a pass that recordInto has to bring in a layout are in it. *)
Definition ready (e : env) (p : rpass) (d : layouts) : Prop :=
  forall a, In a (rp_images p) -> has_transition a = true -> a_getImageLayout a (e_separate e) <> L_UNDEFINED ->
    view_in d (attach_view a (rp_index p)) (a_getImageLayout a (e_separate e)).
(* What is required of the body of a pass: started with all its attachments ready and nothing false in the record context, its
   commands are legal and nothing false is left in the record context. *)
Definition sound_body (e : env) (g : rgraph) (F : view -> Prop) (p : rpass) : Prop := forall c d,
  (forall v, F v -> truthful g c d v) -> ready e p d ->
  let '(c', l) := rp_record p c (rp_index p) in
  all_legal d l /\ (forall v, F v -> truthful g c' (after_all d l) v) /\ incl (rc_implicit c') (rc_implicit c).

(* Implicit actions: the views they touch when they are run for a pass at some index, and what is required of them: the views belong to
   the regions, the two ends of a transfer are separate, and the functions of the user are neutral. *)
Definition action_views (index : nat) (a : action) : list view :=
  match a with
  | ACopy src dst _ _ _ => [src; dst] | ABlit src dst _ _ _ _ _ _ => [src; dst]
  | AClear views _ => [match views with [x] => x | l => nth index l dummy_view end] | AUser _ => []
  end.
Definition action_source (a : action) : option view := match a with ACopy src _ _ _ _ | ABlit src _ _ _ _ _ _ _ => Some src | _ => None end.
Definition sound_action (e : env) (F : view -> Prop) (index : nat) (a : action) : Prop :=
  (forall v, In v (action_views index a) -> F v) /\
  match a with
  | ACopy src dst _ _ _ | ABlit src dst _ _ _ _ _ _ => separate_views src dst
  | AClear _ _ => True | AUser tag => neutral_fun (e_action e tag)
  end.
(* What the use of a view can touch: the views of the actions registered for it, and those of the actions registered for their sources. *)
Inductive touched (acts : list (view * action)) (index : nat) : view -> view -> Prop :=
| touched_here v u a w : In (u, a) acts -> v_id u = v_id v -> In w (action_views index a) -> touched acts index v w
| touched_before v u a s w : In (u, a) acts -> v_id u = v_id v -> action_source a = Some s -> touched acts index s w -> touched acts index v w.

(* A render pass (RenderPass.hpp) with its attachments, recording with the render passes and framebuffers it has. *)
Definition render_pass (e : env) (g : rgraph) (p : rpass) (body : rctx -> nat -> rctx * list cmd) (t : target) : rpass :=
  {| rp_id := rp_id p; rp_images := rp_images p; rp_buffers := rp_buffers p; rp_index := rp_index p; rp_compute := rp_compute p;
     rp_state := rp_state p; rp_record := fun c i => let '(_, c', l) := tg_record e g p i body t c in (c', l);
     rp_pre := rp_pre p; rp_post := rp_post p; rp_implicit := rp_implicit p |}.
(* The views of a pass for all its indices. *)
Definition all_views (p : rpass) : list view := flat_map attach_views (rp_images p).
(* The holder of a render pass at some index: nothing yet, or a render pass made for the attachments of the pass. *)
Definition holds (F : view -> Prop) (p : rpass) (t : target) : Prop :=
  let d := pass_data t (rp_index p) in
  (rp_index p < length (tg_passes t))%nat /\
  (rd_renderPass d = 0 \/
   (rd_attachments d = filter isTarget (rp_images p) /\
    Forall2 (fun a x => en_view x = attach_view a (rp_index p) /\ ls_layout (en_output x) <> L_UNDEFINED) (rd_attachments d) (rd_entries d))) /\
  tg_nexth t <> 0.

(* What is required of the attachments of a render pass: all their views belong to the regions, those of the index exist, every attachment
   has a layout and no two of them designate the same region at the index. *)
Definition proper_targets (e : env) (F : view -> Prop) (p : rpass) : Prop :=
  (forall v, In v (all_views p) -> F v) /\ (forall a, In a (rp_images p) -> In (attach_view a (rp_index p)) (attach_views a)) /\
  (forall a, In a (rp_images p) -> a_getImageLayout a (e_separate e) <> L_UNDEFINED) /\
  pairwise (fun a b => separate_views (attach_view a (rp_index p)) (attach_view b (rp_index p))) (rp_images p).

(* What is required of a pass: its views belong to the regions, two attachments never designate the same region, its actions before and
   after the body are neutral and its body is sound; the implicit actions of the graph are sound at its index, and those that
   one of its attachments can run do not touch the attachments before. *)
Definition sound_pass (e : env) (g : rgraph) (F : view -> Prop) (acts : list (view * action)) (p : rpass) : Prop :=
  (forall v, In v (pass_views p) -> F v) /\
  pairwise (fun a b => separate_views (attach_view a (rp_index p)) (attach_view b (rp_index p))) (rp_images p) /\
  (forall f, In f (rp_pre p) \/ In f (rp_post p) -> neutral_fun f) /\ sound_body e g F p /\
  (forall x, In x acts -> sound_action e F (rp_index p) (snd x)) /\
  ForallOrdPairs (fun a b => forall w, touched acts (rp_index p) (attach_view b (rp_index p)) w -> separate_views w (attach_view a (rp_index p))) (rp_images p).
Definition sound_passes (e : env) (g : rgraph) (F : view -> Prop) (passes : list rpass) : Prop :=
  forall p, In p passes -> sound_pass e g F (flat_map rp_implicit passes) p.

(* Frames: each one has its own enabled passes, dependencies and pass bodies, and the real layouts of the images at its start. *)
Record frame := { fr_env : env; fr_deps : list rctx; fr_passes : list rpass; fr_start : layouts }.
Definition input_layout (g : rgraph) (v : view) : N := ls_layout (getLayoutState (g_inputs g) (v_image v) (v_type v) (v_range v)).
(* Frames one after the other: every pass is sound, what the dependencies say is true, the declared inputs are in the declared layouts,
   and nothing else changed since the end of the previous frame. *)
Fixpoint frames_possible (F : view -> Prop) (g : rgraph) (d : layouts) (l : list frame) : Prop :=
  match l with
  | [] => True
  | f :: rest =>
      sound_passes (fr_env f) g F (fr_passes f) /\
      (forall v, F v -> let k := known_layout (start_context (fr_env f) (fr_deps f) (fr_passes f)) v in k = L_UNDEFINED \/ view_in (fr_start f) v k) /\
      (forall v, F v -> input_layout g v <> L_UNDEFINED -> view_in (fr_start f) v (input_layout g v)) /\
      (forall v, F v -> input_layout g v = L_UNDEFINED -> forall k, view_in d v k -> view_in (fr_start f) v k) /\
      let '(g', cmds, _) := record_graph (fr_env f) g (fr_deps f) (fr_passes f) in
      frames_possible F g' (after_all (fr_start f) cmds) rest
  end.
(* All their commands are legal. *)
Fixpoint frames_legal (g : rgraph) (l : list frame) : Prop :=
  match l with
  | [] => True
  | f :: rest => let '(g', cmds, _) := record_graph (fr_env f) g (fr_deps f) (fr_passes f) in
                 all_legal (fr_start f) cmds /\ frames_legal g' rest
  end.
