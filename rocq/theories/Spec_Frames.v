(* Specification vocabulary for recordings one after the other with render passes. *)
From Verif Require Export Model_Frames.
Local Open Scope N_scope.

(* A body that forgets no layout the record context knows. *)
Definition keeps_known (F : view -> Prop) (p : rpass) : Prop := forall c v, F v -> known_layout c v <> L_UNDEFINED -> known_layout (fst (rp_record p c (rp_index p))) v <> L_UNDEFINED.

(* What is required of a pass: its views belong to the regions, two attachments never designate the same region, the actions
   before and after the body are neutral, the implicit actions of the graph are sound at its index and do not touch the attachments before;
   a render pass draws only and its attachments are proper; the body of another pass is sound and forgets nothing. *)
Definition good_pass (e : env) (g : rgraph) (F : view -> Prop) (acts : list (view * action)) (x : fpass) : Prop :=
  let p := fp_pass x in
  (forall v, In v (pass_views p) -> F v) /\
  pairwise (fun a b => separate_views (attach_view a (rp_index p)) (attach_view b (rp_index p))) (rp_images p) /\
  (forall f, In f (rp_pre p) \/ In f (rp_post p) -> neutral_fun f) /\
  (forall y, In y acts -> sound_action e F (rp_index p) (snd y)) /\
  ForallOrdPairs (fun a b => forall w, touched acts (rp_index p) (attach_view b (rp_index p)) w -> separate_views w (attach_view a (rp_index p))) (rp_images p) /\
  match fp_render x with
  | Some body => proper_targets e F p /\ neutral_fun body
  | None => sound_body e g F p /\ keeps_known F p
  end.

(* A pass that leaves the layout of a view known: it declares it as a sampled, storage, transfer or transition view, or renders to it. *)
Definition brings (e : env) (x : fpass) (v : view) : Prop :=
  let p := fp_pass x in
  e_enabled e (rp_id p) = true /\ exists a, In a (rp_images p) /\ same_region (attach_view a (rp_index p)) v /\
    ((has_transition a = true /\ a_getImageLayout a (e_separate e) <> L_UNDEFINED) \/ (isTarget a = true /\ fp_render x <> None)).
(* The targets whose contents a render pass reads are known when it is recorded: from the graphs this one depends on, or by a pass before. *)
Definition inputs_known (e : env) (start : rctx) (before : list fpass) (x : fpass) : Prop :=
  let p := fp_pass x in
  forall a, In a (rp_images p) -> isTarget a = true -> isInput a = true ->
    known_layout start (attach_view a (rp_index p)) <> L_UNDEFINED \/ exists y, In y before /\ brings e y (attach_view a (rp_index p)).

(* A frame: the enabled passes, what the dependencies know, the passes with their current index, and the real layouts at its start. *)
Record rframe := { rf_env : env; rf_deps : list rctx; rf_passes : list fpass; rf_start : layouts }.
(* Frames one after the other, for a graph whose passes have the attachments [shape], with the holders [ts]: every pass is good; what the
   dependencies say is true, the declared inputs are in the declared layouts, and nothing else changed since the end of the
   previous frame; a render pass recorded for the first time at its index can find its input targets in any state, otherwise their layouts are known. *)
Fixpoint frames_may (F : view -> Prop) (shape : list (list attach)) (g : rgraph) (ts : list target) (d : layouts) (l : list rframe) : Prop :=
  match l with
  | [] => True
  | f :: rest =>
      let e := rf_env f in
      let xts := combine (rf_passes f) ts in
      let start := start_context e (rf_deps f) (map (live e g) xts) in
      map (fun x => rp_images (fp_pass x)) (rf_passes f) = shape /\
      (forall x, In x (rf_passes f) -> good_pass e g F (flat_map (fun x => rp_implicit (fp_pass x)) (rf_passes f)) x) /\
      (forall i x t, nth_error (rf_passes f) i = Some x -> nth_error ts i = Some t -> fp_render x <> None ->
         (rp_index (fp_pass x) < length (tg_passes t))%nat /\
         (rd_renderPass (pass_data t (rp_index (fp_pass x))) = 0 \/ inputs_known e start (firstn i (rf_passes f)) x)) /\
      (forall v, F v -> known_layout start v = L_UNDEFINED \/ view_in (rf_start f) v (known_layout start v)) /\
      (forall v, F v -> input_layout g v <> L_UNDEFINED -> view_in (rf_start f) v (input_layout g v)) /\
      (forall v, F v -> input_layout g v = L_UNDEFINED -> forall k, view_in d v k -> view_in (rf_start f) v k) /\
      let '(g', cmds, ts') := record_frame e g (rf_deps f) xts in
      frames_may F shape g' ts' (after_all (rf_start f) cmds) rest
  end.
(* All their commands are legal. *)
Fixpoint rframes_legal (g : rgraph) (ts : list target) (l : list rframe) : Prop :=
  match l with
  | [] => True
  | f :: rest =>
      let '(g', cmds, ts') := record_frame (rf_env f) g (rf_deps f) (combine (rf_passes f) ts) in
      all_legal (rf_start f) cmds /\ rframes_legal g' ts' rest
  end.
