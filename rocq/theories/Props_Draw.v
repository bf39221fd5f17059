(* C96-C98: what the quad and mesh passes draw with. *)
From Verif Require Import Spec_Draw Proof_Pipe3 Proof_Pipe10 Proof_Target2 Proof_Draw Proof_Draw2 Proof_Draw3 Proof_Draw4 Props_Record Props_Target Props_Pipe.
From Coq Require Import List PeanoNat Lia ZArith.
Import ListNotations.
Local Open Scope N_scope.

Lemma pipe_ops_graphics ops : forall x, Forall op_graphics (pipe_ops x ops).
Proof. induction ops as [|o l IH]; intro x; cbn [pipe_ops]; constructor; [destruct o; exact I|apply IH]. Qed.


(* What any_draw (Proof_Draw4.v) says of the last recording, with the life of the pipeline. *)
Lemma whole_draw k programs count images buffers creator size position cull ops u w ending :
  k = Quad \/ k = Mesh -> (programs = 1 \/ count <= programs)%nat -> (1 <= programs)%nat -> creator_ok programs count creator ->
  Forall (op_of_pass images count) (ops ++ [DwRecord u w ending]) ->
  let x := draws_all (new_drawer k programs count images buffers creator size position cull) ops in
  let x' := fst (draw_record u w ending x) in
  exists pipeline renderPass info made program layout info' s,
    begun_last (tg_log (dw_target x')) renderPass (render_area size images) /\ handles_alive (tg_log (dw_target x')) /\
    made_with (tg_log (dw_target x')) renderPass = Some info /\ length (ri_colours info) = length (colours images) /\
    (draws_nothing (us_body u) -> draws_nothing ending -> drawn_with 0 false (snd (snd (draw_record u w ending x))) = [(pipeline, true)]) /\
    made_as (dr_log (dw_driver x')) pipeline = Some (program, made, layout) /\ living KPipeline (dr_log (dw_driver x')) pipeline /\
    made_with (tg_log (dw_target x')) made = Some info' /\ (one_format images count -> compatible info info') /\
    (separate_pipelines k programs count ops -> made = renderPass) /\
    states_of (dw_made x') pipeline = Some s /\ right k images size position cull s /\ fixed k cull s.
Proof.
  intros kd pc p1 cr op x x'.
  destruct (any_draw k programs count images buffers creator size position cull ops u w ending kd pc p1 cr op) as (r & info & A1 & A2 & A3 & A4 & h & program & r' & info' & ly & s & S & C & [set B] & D & M1 & M2 & Co & Sp & St & Ri & Fi).
  change (dw_step (draws_all (start k programs count images buffers creator size position cull) ops) (DwRecord u w ending)) with x' in *.
  change (draws_all (start k programs count images buffers creator size position cull) ops) with x in *.
  set (hist := born k programs count images buffers creator :: pipe_ops (start k programs count images buffers creator size position cull) ops) in *.
  exists h, r, info, r', program, ly, info', s. repeat (split; [assumption|]). split; [|auto 10].
  assert (G : Forall op_graphics (hist ++ [ORecord 0 (rp_index (us_pass u)) (remade x u)])).
  { apply Forall_app. split; [|repeat constructor]. constructor; [destruct kd; subst; discriminate|apply pipe_ops_graphics]. }
  pose proof (WI_run true KPipeline _ new_pworld (WI_new _ _) (fun _ _ => conj S (graphics_compute_ok _ G))) as W.
  destruct (last_record hist 0 (rp_index (us_pass u)) (remade x u) h ly set S) as (_ & _ & _ & _ & Hz & _); [|exact B|].
  { constructor; [exact cr|]. clear. generalize (start k programs count images buffers creator size position cull). induction ops as [|o l IH]; intro y; cbn [pipe_ops]; constructor; [destruct o; exact I|apply IH]. }
  unfold binds in B. unfold calls in C. destruct (mfind 0 (pw_passes (prun new_pworld (hist ++ [ORecord 0 (rp_index (us_pass u)) (remade x u)])))) as [p|] eqn:E; [|discriminate B].
  destruct (WI_pass true KPipeline _ 0 p W E) as [P _]. cbn [option_map] in B. injection B as B _ _.
  pose proof (PI_alive KPipeline _ _ h P) as Al. cbn [fst snd] in Al. rewrite C in Al. apply Al; [|exact Hz].
  rewrite <- B. unfold ho_pipeline. cbn [owned].
  destruct (nth_in_or_default (slot_of (pp_holder p) (rp_index (us_pass u))) (ho_pipelines (pp_holder p)) 0) as [Y|Y]; [exact Y|]. exfalso. apply Hz. rewrite <- B. exact Y.
Qed.

(** C96: whatever the frames and the resets, a quad or mesh pass records one draw, inside the render pass that the recording begins,
    with a living pipeline; when the views of each target have one format, the render pass this pipeline was created for is
    compatible with the one begun. *)
Theorem C96_draw : forall k programs count images buffers creator size position cull ops u w ending,
  k = Quad \/ k = Mesh -> (programs = 1 \/ count <= programs)%nat -> (1 <= programs)%nat -> creator_ok programs count creator ->
  one_format images count -> Forall (op_of_pass images count) (ops ++ [DwRecord u w ending]) ->
  draws_nothing (us_body u) -> draws_nothing ending ->
  let x := draws_all (new_drawer k programs count images buffers creator size position cull) ops in
  let '(x', (c, l)) := draw_record u w ending x in
  exists pipeline renderPass area info made program layout info',
    begun_last (tg_log (dw_target x')) renderPass area /\ handles_alive (tg_log (dw_target x')) /\
    drawn_with 0 false l = [(pipeline, true)] /\
    made_as (dr_log (dw_driver x')) pipeline = Some (program, made, layout) /\ living KPipeline (dr_log (dw_driver x')) pipeline /\
    made_with (tg_log (dw_target x')) renderPass = Some info /\ made_with (tg_log (dw_target x')) made = Some info' /\ compatible info info'.
Proof.
  intros k programs count images buffers creator size position cull ops u w ending kd pc p1 cr o1 op N1 N2 x.
  destruct (whole_draw k programs count images buffers creator size position cull ops u w ending kd pc p1 cr op) as (h & r & info & made & program & ly & info' & s & A1 & A2 & A3 & _ & A5 & A6 & A7 & A8 & A9 & _).
  fold x in A1, A2, A3, A5, A6, A7, A8, A9. specialize (A5 N1 N2). specialize (A9 o1). destruct (draw_record u w ending x) as [x' [c l]]. cbn [fst snd] in *.
  exists h, r, (render_area size images), info, made, program, ly, info'. auto 10.
Qed.
Print Assumptions C96_draw.
(** With one index, or a quad with one program per index whose programs are not changed, it is the very render pass that is begun. *)
Theorem C96_same_render_pass_partial : forall k programs count images buffers creator size position cull ops u w ending,
  k = Quad \/ k = Mesh -> (programs = 1 \/ count <= programs)%nat -> (1 <= programs)%nat -> creator_ok programs count creator ->
  separate_pipelines k programs count ops -> Forall (op_of_pass images count) (ops ++ [DwRecord u w ending]) ->
  draws_nothing (us_body u) -> draws_nothing ending ->
  let x := draws_all (new_drawer k programs count images buffers creator size position cull) ops in
  let '(x', (c, l)) := draw_record u w ending x in
  exists pipeline renderPass area program layout,
    begun_last (tg_log (dw_target x')) renderPass area /\ drawn_with 0 false l = [(pipeline, true)] /\
    made_as (dr_log (dw_driver x')) pipeline = Some (program, renderPass, layout) /\ living KPipeline (dr_log (dw_driver x')) pipeline.
Proof.
  intros k programs count images buffers creator size position cull ops u w ending kd pc p1 cr sp op N1 N2 x.
  destruct (whole_draw k programs count images buffers creator size position cull ops u w ending kd pc p1 cr op) as (h & r & info & made & program & ly & info' & s & A1 & A2 & A3 & _ & A5 & A6 & A7 & A8 & _ & A10 & _).
  fold x in A1, A2, A3, A5, A6, A7, A8. specialize (A5 N1 N2). specialize (A10 sp). subst made. destruct (draw_record u w ending x) as [x' [c l]]. cbn [fst snd] in *.
  exists h, r, (render_area size images), program, ly. auto.
Qed.
Print Assumptions C96_same_render_pass_partial.

(* one pass with one target: recorded, its program changed, recorded when its target was left elsewhere *)
Definition one_target : list attach := rp_images (colour_rp addInOutColourView).
Definition left_elsewhere : rctx := set_view new_rctx (tv 1 1 37) (makeLayoutState L_TRANSFER_DST).
Definition a_quad : drawing := QuadDraws 5 [] 0 0 1.
Definition a_mesh (indices : N) : drawing := MeshDraws {| mc_vertex := [5]; mc_index := [6]; mc_indirect := []; mc_indirectOffset := 0; mc_indirectStride := 0; mc_vertexCount := 8; mc_primitiveCount := indices |}.
Definition nothing_more : rctx -> nat -> rctx * list cmd := no_body.
Definition draw_history : list dop := [DwRecord (first_use addInOutColourView new_rctx) a_quad nothing_more; DwReset 0 (Some 9)].
Lemma no_body_draws_nothing : draws_nothing no_body. Proof. intros c i h b rest. reflexivity. Qed.
Example C96_applies :
  let u := first_use addInOutColourView left_elsewhere in
  one_format one_target 1 /\ separate_pipelines Mesh 1 1 draw_history /\ creator_ok 1 1 None /\ Forall (op_of_pass one_target 1) (draw_history ++ [DwRecord u a_quad nothing_more]) /\
  let x := draws_all (new_drawer Mesh 1 1 one_target [] None (16, 16) (0, 0)%Z 0) draw_history in
  let '(x', (c, l)) := draw_record u a_quad nothing_more x in
  (* two render passes were made, the second one is used *)
  (exists b f clear, tg_log (dw_target x') = b ++ [TBegin 3 f (16, 16) clear; TEnd]) /\ drawn_with 0 false l = [(10, true)] /\
  made_as (dr_log (dw_driver x')) 10 = Some (9, 3, 8).
Proof.
  cbn zeta. split; [|split; [|split; [|split]]].
  - intros a i j [ <- |[]] Hi Hj. reflexivity.
  - left. reflexivity.
  - intros H. contradiction.
  - repeat constructor.
  - vm_compute. split; [eexists (_ :: _ :: _ :: _ :: _ :: _ :: _ :: _ :: []); do 2 eexists; reflexivity|]. split; reflexivity.
Qed.

(** C96 is false when the views of a target have several formats: the pipeline shared by the indices was created for the render pass
    of another index, with other formats. *)
Definition pass_at (images : list attach) (i : nat) : rpass :=
  {| rp_id := 1; rp_images := images; rp_buffers := []; rp_index := i; rp_compute := false; rp_state := colour_output_state;
     rp_record := fun c _ => (c, []); rp_pre := []; rp_post := []; rp_implicit := [] |}.
Definition use_at (images : list attach) (i : nat) : use := {| us_env := all_on; us_graph := empty_graph; us_pass := pass_at images i; us_body := no_body; us_ctx := new_rctx |}.
Definition two_formats : list attach := [declare_image addOutputColourView 1 [tv 1 1 37; tv 2 2 44] 0 0 0 7].
Theorem C96_formats_refuted : exists k programs count images buffers creator size position cull ops u w ending,
  (k = Quad \/ k = Mesh) /\ (programs = 1 \/ count <= programs)%nat /\ (1 <= programs)%nat /\ creator_ok programs count creator /\
  Forall (op_of_pass images count) (ops ++ [DwRecord u w ending]) /\ draws_nothing (us_body u) /\ draws_nothing ending /\
  let x := draws_all (new_drawer k programs count images buffers creator size position cull) ops in
  let '(x', (c, l)) := draw_record u w ending x in
  exists pipeline renderPass area info made program layout info',
    begun_last (tg_log (dw_target x')) renderPass area /\ drawn_with 0 false l = [(pipeline, true)] /\
    made_as (dr_log (dw_driver x')) pipeline = Some (program, made, layout) /\
    made_with (tg_log (dw_target x')) renderPass = Some info /\ made_with (tg_log (dw_target x')) made = Some info' /\ ~ compatible info info'.
Proof.
  exists Quad, 1%nat, 2%nat, two_formats, [], None, (16, 16), (0, 0)%Z, 0, [DwRecord (use_at two_formats 0) a_quad nothing_more; DwRecord (use_at two_formats 1) a_quad nothing_more],
    (use_at two_formats 0), a_quad, nothing_more.
  split; [left; reflexivity|]. split; [left; reflexivity|]. split; [constructor|]. split; [intros H; contradiction|].
  split; [repeat constructor|]. split; [exact no_body_draws_nothing|]. split; [exact no_body_draws_nothing|].
  cbn zeta. vm_compute. do 8 eexists. split; [eexists (_ :: _ :: _ :: _ :: _ :: _ :: _ :: _ :: []); do 2 eexists; reflexivity|]. split; [reflexivity|]. split; [reflexivity|]. split; [reflexivity|]. split; [reflexivity|].
  intros [H _]. discriminate H.
Qed.
Print Assumptions C96_formats_refuted.

(** C97: the pipeline that draws has one blend state for each colour attachment of the render pass, in the order of the attachments;
    its viewport and its scissor are the rectangle of the configuration. *)
Theorem C97_states : forall k programs count images buffers creator size position cull ops u w ending,
  k = Quad \/ k = Mesh -> (programs = 1 \/ count <= programs)%nat -> (1 <= programs)%nat -> creator_ok programs count creator ->
  Forall (op_of_pass images count) (ops ++ [DwRecord u w ending]) -> draws_nothing (us_body u) -> draws_nothing ending ->
  let x := draws_all (new_drawer k programs count images buffers creator size position cull) ops in
  let '(x', (c, l)) := draw_record u w ending x in
  exists pipeline renderPass area info s,
    begun_last (tg_log (dw_target x')) renderPass area /\ made_with (tg_log (dw_target x')) renderPass = Some info /\
    drawn_with 0 false l = [(pipeline, true)] /\ states_of (dw_made x') pipeline = Some s /\
    length (gp_blend s) = length (ri_colours info) /\
    gp_blend s = map ia_misc (filter (fun a => negb (depth_target a)) (filter isTarget images)) /\
    gp_viewport s = (position, size) /\ gp_scissor s = (position, size).
Proof.
  intros k programs count images buffers creator size position cull ops u w ending kd pc p1 cr op N1 N2 x.
  destruct (whole_draw k programs count images buffers creator size position cull ops u w ending kd pc p1 cr op) as (h & r & info & made & program & ly & info' & s & A1 & A2 & A3 & A4 & A5 & A6 & A7 & A8 & _ & _ & A11 & (R1 & R2 & R3) & _).
  fold x in A1, A2, A3, A5, A6, A7, A8, A11. specialize (A5 N1 N2). destruct (draw_record u w ending x) as [x' [c l]]. cbn [fst snd] in *.
  exists h, r, (render_area size images), info, s. rewrite A4, R3, map_length. auto 10.
Qed.
Print Assumptions C97_states.
Lemma area_holds size images a : In a (filter isTarget images) ->
  fst (level_extent (attach_view a 0)) <= fst (render_area size images) /\ snd (level_extent (attach_view a 0)) <= snd (render_area size images).
Proof.
  intro H. apply filter_In in H. destruct H as [H T]. apply in_split in H. destruct H as (l1 & l2 & ->). unfold render_area. rewrite fold_left_app. cbn [fold_left]. rewrite T.
  match goal with |- _ <= fst (fold_left ?f l2 ?s) /\ _ => destruct (areas s l2) as (A & B & _); unfold render_area in A, B end. cbn [fst snd] in A, B. lia.
Qed.
(** C97, of the area: the scissor and the viewport are inside of the area of the render pass when the rectangle of the configuration is
    inside of a target, and when its position is the default one; when its size is also at least that of the targets, it is the whole
    area.  Missing: the smaller sizes, below. *)
Theorem C97_area_partial : forall k programs count images buffers creator size position cull ops u w ending,
  k = Quad \/ k = Mesh -> (programs = 1 \/ count <= programs)%nat -> (1 <= programs)%nat -> creator_ok programs count creator ->
  Forall (op_of_pass images count) (ops ++ [DwRecord u w ending]) -> draws_nothing (us_body u) -> draws_nothing ending ->
  let x := draws_all (new_drawer k programs count images buffers creator size position cull) ops in
  let '(x', (c, l)) := draw_record u w ending x in
  exists pipeline renderPass area s,
    begun_last (tg_log (dw_target x')) renderPass area /\ drawn_with 0 false l = [(pipeline, true)] /\ states_of (dw_made x') pipeline = Some s /\
    ((exists a, In a (filter isTarget images) /\ inside (position, size) (level_extent (attach_view a 0))) \/ position = (0, 0)%Z ->
     inside (gp_scissor s) area /\ inside (gp_viewport s) area) /\
    (position = (0, 0)%Z -> Forall (fits_in size) (filter isTarget images) -> covers (gp_scissor s) area /\ covers (gp_viewport s) area).
Proof.
  intros k programs count images buffers creator size position cull ops u w ending kd pc p1 cr op N1 N2 x.
  destruct (whole_draw k programs count images buffers creator size position cull ops u w ending kd pc p1 cr op) as (h & r & info & made & program & ly & info' & s & A1 & A2 & A3 & A4 & A5 & A6 & A7 & A8 & _ & _ & A11 & (R1 & R2 & R3) & _).
  fold x in A1, A2, A3, A5, A6, A7, A8, A11. specialize (A5 N1 N2). destruct (draw_record u w ending x) as [x' [c l]]. cbn [fst snd] in *.
  exists h, r, (render_area size images), s. split; [exact A1|]. split; [exact A5|]. split; [exact A11|]. rewrite R1, R2.
  destruct (areas size images) as (B1 & B2 & B3). pose proof (area_holds size images) as B4. clear - B1 B2 B3 B4. destruct size as [sw sh]. destruct position as [px py]. unfold inside, covers. cbn [fst snd] in *.
  split.
  - intros [(a & Ia & P1 & P2 & P3 & P4)|E].
    + destruct (B4 a Ia) as [B5 B6]. revert P3 P4 B5 B6. generalize (level_extent (attach_view a 0)), (render_area (sw, sh) images). intros [ew eh] [aw ah]. cbn [fst snd]. lia.
    + injection E as -> ->. revert B1 B2. generalize (render_area (sw, sh) images). intros [aw ah]. cbn [fst snd]. lia.
  - intros E F. injection E as -> ->. rewrite (B3 F). cbn [fst snd]. lia.
Qed.
Print Assumptions C97_area_partial.
Example C97_applies :
  let u := first_use addInOutColourView left_elsewhere in Forall (fits_in (16, 16)) (filter isTarget one_target) /\
  let x := draws_all (new_drawer Quad 1 1 one_target [] None (16, 16) (0, 0)%Z 0) draw_history in
  let '(x', (c, l)) := draw_record u a_quad nothing_more x in
  exists pipeline s, drawn_with 0 false l = [(pipeline, true)] /\ states_of (dw_made x') pipeline = Some s /\ gp_blend s = [7] /\ gp_scissor s = (0%Z, 0%Z, (16, 16)).
Proof.
  cbn zeta. split; [repeat constructor; vm_compute; discriminate|]. vm_compute. do 2 eexists. split; [reflexivity|]. split; [reflexivity|]. split; reflexivity.
Qed.
(** C97 is false of the other configurations.  The size that is not configured, 0 by default, is not taken from the attachments for the
    viewport and the scissor, although it is for the render pass: nothing is drawn. *)
Theorem C97_default_size_refuted : exists k images u w ending,
  (k = Quad \/ k = Mesh) /\ Forall (op_of_pass images 1) [DwRecord u w ending] /\ draws_nothing (us_body u) /\ draws_nothing ending /\
  let x := new_drawer k 1 1 images [] None (0, 0) (0, 0)%Z 0 in
  let '(x', (c, l)) := draw_record u w ending x in
  exists pipeline renderPass area s,
    begun_last (tg_log (dw_target x')) renderPass area /\ drawn_with 0 false l = [(pipeline, true)] /\ states_of (dw_made x') pipeline = Some s /\
    area = (16, 16) /\ gp_scissor s = (0%Z, 0%Z, (0, 0)) /\ gp_viewport s = (0%Z, 0%Z, (0, 0)) /\ ~ covers (gp_scissor s) area.
Proof.
  exists Quad, one_target, (first_use addInOutColourView new_rctx), a_quad, nothing_more. split; [left; reflexivity|]. split; [repeat constructor|].
  split; [exact no_body_draws_nothing|]. split; [exact no_body_draws_nothing|]. cbn zeta. vm_compute. do 4 eexists.
  split; [eexists (_ :: _ :: []); do 2 eexists; reflexivity|]. split; [reflexivity|]. split; [reflexivity|]. split; [reflexivity|]. split; [reflexivity|]. split; [reflexivity|]. intros (_ & _ & H & _). apply H. reflexivity.
Qed.
Print Assumptions C97_default_size_refuted.
(** C98: meshes are drawn as lists of triangles, the quad as a strip; the cull mode is the one the callback gave when the pass was made. *)
Theorem C98_topology : forall k programs count images buffers creator size position cull ops u w ending,
  k = Quad \/ k = Mesh -> (programs = 1 \/ count <= programs)%nat -> (1 <= programs)%nat -> creator_ok programs count creator ->
  Forall (op_of_pass images count) (ops ++ [DwRecord u w ending]) -> draws_nothing (us_body u) -> draws_nothing ending ->
  let x := draws_all (new_drawer k programs count images buffers creator size position cull) ops in
  let '(x', (c, l)) := draw_record u w ending x in
  exists pipeline s, drawn_with 0 false l = [(pipeline, true)] /\ states_of (dw_made x') pipeline = Some s /\
    (k = Mesh -> gp_topology s = TOPOLOGY_LIST /\ gp_cull s = cull) /\ (k = Quad -> gp_topology s = TOPOLOGY_STRIP /\ gp_cull s = 0).
Proof.
  intros k programs count images buffers creator size position cull ops u w ending kd pc p1 cr op N1 N2 x.
  destruct (whole_draw k programs count images buffers creator size position cull ops u w ending kd pc p1 cr op) as (h & r & info & made & program & ly & info' & s & A1 & A2 & A3 & A4 & A5 & A6 & A7 & A8 & _ & _ & A11 & _ & F1 & F2).
  fold x in A5, A11. specialize (A5 N1 N2). destruct (draw_record u w ending x) as [x' [c l]]. cbn [fst snd] in *.
  exists h, s. split; [exact A5|]. split; [exact A11|]. split; intro E; rewrite E in F1, F2; split; assumption.
Qed.
Print Assumptions C98_topology.
(* the triangles the direct draws of a command buffer make *)
Definition triangles (topology : N) (l : list cmd) : list N :=
  flat_map (fun c => match c with CDraw n i | CDrawIndexed n i => [primitives topology n * i] | _ => [] end) l.
(** C98: a quad without an indirect buffer is one triangle per instance; a mesh without buffers of indices is a third of its vertices. *)
Theorem C98_triangles : forall index,
  (forall vertex indirect offset stride instances, buffer_at indirect index = 0 -> triangles TOPOLOGY_STRIP (draw_cmds (QuadDraws vertex indirect offset stride instances) index) = [instances]) /\
  (forall m, buffer_at (mc_indirect m) index = 0 -> buffer_at (mc_index m) index = 0 -> triangles TOPOLOGY_LIST (draw_cmds (MeshDraws m) index) = [mc_vertexCount m / 3]) /\
  (forall m, buffer_at (mc_indirect m) index = 0 -> buffer_at (mc_index m) index <> 0 -> triangles TOPOLOGY_LIST (draw_cmds (MeshDraws m) index) = [mc_primitiveCount m / 3]).
Proof.
  intro index. split; [|split].
  - intros vertex indirect offset stride instances H. cbn [draw_cmds]. unfold quad_draw. rewrite H. cbn zeta.
    destruct (N.eqb vertex 0); cbn [N.eqb app triangles flat_map]; change (primitives TOPOLOGY_STRIP 3) with 1; rewrite N.mul_1_l; reflexivity.
  - intros m H1 H2. cbn [draw_cmds]. unfold mesh_draw. cbn zeta. rewrite H1, H2. destruct (N.eqb (buffer_at (mc_vertex m) index) 0); cbn [N.eqb negb app triangles flat_map]; unfold primitives; rewrite N.eqb_refl, N.mul_1_r; reflexivity.
  - intros m H1 H2. cbn [draw_cmds]. unfold mesh_draw. cbn zeta. rewrite H1. apply N.eqb_neq in H2. rewrite H2. destruct (N.eqb (buffer_at (mc_vertex m) index) 0); cbn [N.eqb negb app triangles flat_map]; unfold primitives; rewrite N.eqb_refl, N.mul_1_r; reflexivity.
Qed.
Print Assumptions C98_triangles.
(** C98 is false of the primitives: the callback that returns the count of primitives is used as the count of indices, a third of the
    primitives is drawn; its default value draws none. *)
Theorem C98_primitive_count_refuted : exists m index, mc_primitiveCount m = 12 /\ triangles TOPOLOGY_LIST (draw_cmds (MeshDraws m) index) = [4].
Proof. exists {| mc_vertex := [5]; mc_index := [6]; mc_indirect := []; mc_indirectOffset := 0; mc_indirectStride := 0; mc_vertexCount := 8; mc_primitiveCount := 12 |}, 0%nat. split; reflexivity. Qed.
Print Assumptions C98_primitive_count_refuted.
Theorem C98_default_count_refuted : forall m index, buffer_at (mc_indirect m) index = 0 -> mc_vertexCount m = 1 -> mc_primitiveCount m = 1 ->
  triangles TOPOLOGY_LIST (draw_cmds (MeshDraws m) index) = [0].
Proof.
  intros m index H V P. destruct (C98_triangles index) as (_ & A & B). destruct (N.eq_dec (buffer_at (mc_index m) index) 0) as [E|E].
  - rewrite (A m H E), V. reflexivity.
  - rewrite (B m H E), P. reflexivity.
Qed.
Print Assumptions C98_default_count_refuted.
Example C98_applies :
  let u := first_use addInOutColourView left_elsewhere in
  let x := draws_all (new_drawer Mesh 1 1 one_target [] None (16, 16) (0, 0)%Z 2) draw_history in
  let '(x', (c, l)) := draw_record u (a_mesh 12) nothing_more x in
  exists pipeline s, drawn_with 0 false l = [(pipeline, true)] /\ states_of (dw_made x') pipeline = Some s /\ gp_topology s = TOPOLOGY_LIST /\ gp_cull s = 2 /\ triangles (gp_topology s) l = [4].
Proof. vm_compute. do 2 eexists. repeat split; reflexivity. Qed.
