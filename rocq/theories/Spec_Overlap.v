(* Specification vocabulary: views that overlap.  A view is used as a whole; what is known and what is real is looked at one subresource
   (one layer of one level) at a time. *)
From Verif Require Export Spec_Device.
Local Open Scope N_scope.

(* A view of one subresource, and the layout the graph gives when it is asked about it. *)
Definition part (im : image) (layer mip : N) : view :=
  mkView 0 im 0 VT_2D_ARRAY (i_format im) {| r_aspect := ASPECT_COLOR; r_mip := mip; r_levels := 1; r_layer := layer; r_layers := 1 |} [].
Definition told (g : rgraph) (c : rctx) (im : image) (layer mip : N) : N := said g c (part im layer mip).
(* Nothing false is said about a subresource of a view. *)
Definition parts_true (g : rgraph) (V : view -> Prop) (c : rctx) (d : layouts) : Prop :=
  forall v layer mip, V v -> in_range (v_range v) layer mip ->
    told g c (v_image v) layer mip = L_UNDEFINED \/ d (i_id (v_image v)) layer mip = told g c (v_image v) layer mip.
(* No subresource is tracked in the layout UNDEFINED. *)
Definition never_undefined (h : handler) : Prop :=
  forall i m layer l mip s, mfind i h = Some m -> mfind layer m = Some l -> mfind mip l = Some s -> ls_layout s <> L_UNDEFINED.

(* All the subresources of a view are in one layout. *)
Definition one_layout (d : layouts) (v : view) : Prop := exists k, view_in d v k.
(* The views a pass has brought in a layout before its body, with these layouts, in order. *)
Definition asked (e : env) (p : rpass) : list (view * N) :=
  map (fun a => (attach_view a (rp_index p), a_getImageLayout a (e_separate e))) (filter has_transition (rp_images p)).
Definition moved (d : layouts) (x : view * N) : layouts := put d (i_id (v_image (fst x))) (v_range (fst x)) (snd x).
(* Each of them is in one layout when its turn comes. *)
Fixpoint even_uses (d : layouts) (l : list (view * N)) : Prop :=
  match l with [] => True | x :: r => one_layout d (fst x) /\ even_uses (moved d x) r end.
(* So are the targets of the pass once the others are ready. *)
Definition even_targets (p : rpass) (d : layouts) : Prop :=
  forall a, In a (rp_images p) -> isTarget a = true -> one_layout d (attach_view a (rp_index p)).
Definition even_pass (e : env) (p : rpass) (d : layouts) : Prop :=
  even_uses d (asked e p) /\ even_targets p (fold_left moved (asked e p) d).
(* And so on for all the passes, the layouts being those the commands recorded before leave. *)
Fixpoint even_record (e : env) (g : rgraph) (passes : list rpass) (c : rctx) (d : layouts) : Prop :=
  match passes with
  | [] => True
  | p :: rest => (e_enabled e (rp_id p) = true -> even_pass e p d) /\
                 let '(c', l) := recordInto e g p (prepare e g p rest c) in even_record e g rest c' (after_all d l)
  end.

(* What is required of the body of a pass. *)
Definition sound_parts (e : env) (g : rgraph) (V : view -> Prop) (p : rpass) : Prop := forall c d,
  parts_true g V c d -> never_undefined (rc_images c) -> rc_implicit c = [] -> ready e p d -> even_targets p d ->
  let '(c', l) := rp_record p c (rp_index p) in
  all_legal d l /\ parts_true g V c' (after_all d l) /\ never_undefined (rc_images c') /\ rc_implicit c' = [].
(* What is required of a pass: its views belong to V, each has a layout, two of them with something in common are asked in the same
   layout, the actions before and after the body are neutral, the body is sound; no implicit action. *)
Definition fitting_pass (e : env) (g : rgraph) (V : view -> Prop) (p : rpass) : Prop :=
  (forall v, In v (pass_views p) -> V v) /\ (forall x, In x (asked e p) -> snd x <> L_UNDEFINED) /\
  (forall x y, In x (asked e p) -> In y (asked e p) -> separate_views (fst x) (fst y) \/ snd x = snd y) /\
  (forall f, In f (rp_pre p) \/ In f (rp_post p) -> neutral_fun f) /\ rp_implicit p = [] /\ sound_parts e g V p.

(* What is required of the targets of a render pass: none is made of other views, they have nothing in common, and all the views of the
   attachments, for all the indices, are views of an image that is not 3D and have a layout. *)
Definition plain_targets (e : env) (p : rpass) : Prop :=
  (forall a, In a (rp_images p) -> In (attach_view a (rp_index p)) (attach_views a) /\ a_getImageLayout a (e_separate e) <> L_UNDEFINED /\
     forall v w, In v (attach_views a) -> In w (v :: v_source v) -> view_ok w) /\
  (forall a, In a (rp_images p) -> isTarget a = true -> v_source (attach_view a (rp_index p)) = []) /\
  pairwise (fun a b => separate_views (attach_view a (rp_index p)) (attach_view b (rp_index p))) (filter isTarget (rp_images p)).

(* Frames one after the other. *)
Definition part_known (h : handler) (im : image) (layer mip : N) : N :=
  ls_layout (getLayoutState h im VT_2D_ARRAY (v_range (part im layer mip))).
Fixpoint even_frames (V : view -> Prop) (g : rgraph) (d : layouts) (l : list frame) : Prop :=
  match l with
  | [] => True
  | f :: rest =>
      let start := start_context (fr_env f) (fr_deps f) (fr_passes f) in
      (forall p, In p (fr_passes f) -> fitting_pass (fr_env f) g V p) /\ never_undefined (rc_images start) /\
      (* what the dependencies say is true, the declared inputs are in the declared layouts, and nothing else changed since the last frame *)
      (forall v layer mip, V v -> in_range (v_range v) layer mip ->
         let real := fr_start f (i_id (v_image v)) layer mip in
         let dep := part_known (rc_images start) (v_image v) layer mip in let input := part_known (g_inputs g) (v_image v) layer mip in
         (dep <> L_UNDEFINED -> real = dep) /\ (dep = L_UNDEFINED -> input <> L_UNDEFINED -> real = input) /\
         (dep = L_UNDEFINED -> input = L_UNDEFINED -> real = d (i_id (v_image v)) layer mip)) /\
      (* no view is used while its subresources are in different layouts *)
      even_record (fr_env f) g (fr_passes f) start (fr_start f) /\
      let '(g', cmds, _) := record_graph (fr_env f) g (fr_deps f) (fr_passes f) in
      even_frames V g' (after_all (fr_start f) cmds) rest
  end.
