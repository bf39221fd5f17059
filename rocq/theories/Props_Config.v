(* C103: the options of the configurations reach the passes. *)
From Verif Require Import Spec_Config Proof_Config Spec_Draw Props_Target Props_Draw Props_Record.
From Coq Require Import List PeanoNat Lia ZArith.
Import ListNotations.
Local Open Scope N_scope.

Ltac option_of set get gives new := apply (takes_fold set get gives ltac:(intros [] []; reflexivity) _ new); reflexivity.

(** C103, the pipeline: its descriptor set layouts (after the one made for the attachments of the pass) and its push constants are the
    last given, none by default; the program creator, when the last one given has a function, provides the programs; otherwise the
    programs are the last given, and a single one serves every index. *)
Theorem C103_pipeline : forall l,
  let d := pp_resolve (pp_build l) in
  (forall own, exists layouts push, pp_pipeline_layout d own = (own :: layouts, push) /\
     takes gives_layouts l [] layouts /\ takes gives_push l [] push) /\
  (forall cr f, given gives_creator l cr -> cr_create cr = Some f ->
     pd_pipelines d = cr_max cr /\ forall i, pp_program d i = if Nat.ltb i (cr_max cr) then Some (f i) else None) /\
  (forall ps, (forall cr, given gives_creator l cr -> cr_create cr = None) ->
     given gives_programs l ps \/ unset gives_programs l /\ ps = [] ->
     pd_pipelines d = length ps /\ forall i, pp_program d i = nth_error ps (if Nat.eqb (length ps) 1 then 0 else i)%nat).
Proof.
  intros l d. split; [|split].
  - intros own. exists (pd_layouts d), (pd_push d). split; [reflexivity|]. split; [apply pp_layouts_takes | apply pp_push_takes].
  - intros cr f. apply pp_created.
  - intros ps. apply pp_listed.
Qed.
Print Assumptions C103_pipeline.
Example C103_pipeline_applies :
  let l := [PpProgram 4; PpLayout 7; PpPrograms [5; 6]; PpPush 1; PpLayouts [8; 9]] in
  let m := PpCreator {| cr_max := 2; cr_create := Some (fun i => 20 + N.of_nat i) |} :: l in
  given gives_programs l [5; 6] /\ unset gives_creator l /\ given gives_layouts l [8; 9] /\
  pp_pipeline_layout (pp_resolve (pp_build l)) 3 = ([3; 8; 9], [1]) /\ map (pp_program (pp_resolve (pp_build l))) [0; 1; 2]%nat = [Some 5; Some 6; None] /\
  map (pp_program (pp_resolve (pp_build m))) [0; 1; 2]%nat = [Some 20; Some 21; None].
Proof.
  cbn zeta. split; [|split; [|split]].
  - exists [PpProgram 4; PpLayout 7], (PpPrograms [5; 6]), [PpPush 1; PpLayouts [8; 9]]. split; [reflexivity|]. split; [reflexivity|].
    intros o' [ <- |[ <- |[]]]; reflexivity.
  - intros o' [ <- |[ <- |[ <- |[ <- |[ <- |[]]]]]]; reflexivity.
  - exists [PpProgram 4; PpLayout 7; PpPrograms [5; 6]; PpPush 1], (PpLayouts [8; 9]), []. repeat split. intros o' [].
  - vm_compute. repeat split.
Qed.

(** C103, a quad pass: whatever the calls, in whatever order, each option has the last value given, or its default. *)
Theorem C103_quad : forall l w,
  let p := new_quad_pass (rq_build l) in
  qp_pipeline p = pp_resolve (pp_build (quad_pipeline_calls l)) /\
  (forall f, given quad_isEnabled l f -> quad_enabled p w = f w) /\
  (forall v, unset quad_isEnabled l -> given quad_enabled_var l v -> v <> 0 -> quad_enabled p w = w_bool w v) /\
  (unset quad_isEnabled l -> given quad_enabled_var l 0 \/ unset quad_enabled_var l -> quad_enabled p w = true) /\
  (forall v, given quad_index_var l v -> v <> 0 -> quad_index p w = w_u32 w v) /\
  (given quad_index_var l 0 \/ unset quad_index_var l -> quad_index p w = 0) /\
  takes quad_texcoord l (false, false) (qp_texcoord p) /\ (qp_useTexcoord p = false <-> unset quad_texcoord l) /\
  takes quad_depth l no_depth (qp_depth p) /\
  takes quad_record l no_record (qp_record p) /\ takes quad_end l no_record (qp_end p).
Proof.
  intros l w p.
  pose proof (option_fold rq_set rq_isEnabled quad_isEnabled ltac:(intros [] []; reflexivity) l rq_new eq_refl) as (E1 & E2).
  assert (takes quad_enabled_var l 0 (qp_enabled p)) as (V1 & V2) by option_of rq_set rq_enabled quad_enabled_var rq_new.
  assert (takes quad_index_var l 0 (qp_index p)) as (I1 & I2) by option_of rq_set rq_index quad_index_var rq_new.
  change (fold_left rq_set l rq_new) with (rq_build l) in E1, E2.
  split; [|split; [|split; [|split; [|split; [|split; [|split; [|split; [|split; [|split]]]]]]]]].
  - unfold p, new_quad_pass, quad_pipeline_calls, rq_build. cbn [qp_pipeline]. f_equal.
    apply (base_fold rq_set rq_base rq_direct rq_whole ltac:(intros [] []; reflexivity)). reflexivity.
  - intros f G. unfold quad_enabled, p. cbn [new_quad_pass qp_isEnabled]. rewrite (E1 f G). reflexivity.
  - intros v U G NZ. unfold quad_enabled. rewrite (V1 v G). unfold p. cbn [new_quad_pass qp_isEnabled]. rewrite (E2 U).
    apply N.eqb_neq in NZ. rewrite NZ. reflexivity.
  - intros U G. unfold quad_enabled. assert (qp_enabled p = 0) as -> by (destruct G as [G|G]; [exact (V1 0 G) | exact (V2 G)]).
    unfold p. cbn [new_quad_pass qp_isEnabled]. rewrite (E2 U). reflexivity.
  - intros v G NZ. unfold quad_index. rewrite (I1 v G). apply N.eqb_neq in NZ. rewrite NZ. reflexivity.
  - intros G. unfold quad_index. assert (qp_index p = 0) as -> by (destruct G as [G|G]; [exact (I1 0 G) | exact (I2 G)]). reflexivity.
  - option_of rq_set rq_texcoord quad_texcoord rq_new.
  - pose proof (option_fold rq_set rq_texcoord quad_texcoord ltac:(intros [] []; reflexivity) l rq_new eq_refl) as (T1 & T2).
    change (fold_left rq_set l rq_new) with (rq_build l) in T1, T2. unfold p. cbn [new_quad_pass qp_useTexcoord].
    destruct (given_or_unset quad_texcoord l) as [(t & G)|U].
    + rewrite (T1 t G). split; [discriminate|]. intros U. destruct G as (b & o & a & -> & G & _).
      rewrite (U o) in G by (apply in_or_app; right; now left). discriminate.
    + rewrite (T2 U). split; auto.
  - option_of rq_set rq_depth quad_depth rq_new.
  - option_of rq_set rq_record quad_record rq_new.
  - option_of rq_set rq_end quad_end rq_new.
Qed.
Print Assumptions C103_quad.

(** ... and its draw: the indirect buffer when one is given, else three vertices and the number of instances given, one by default. *)
Theorem C103_quad_draws : forall l vertex index,
  let p := new_quad_pass (rq_build l) in
  (forall b, given quad_indirect l b -> buffer_at (ib_buffers b) index <> 0 ->
     draw_cmds (quad_drawing p vertex) index =
     (if N.eqb vertex 0 then [] else [CBindVertexBuffer vertex]) ++ [CDrawIndirect (buffer_at (ib_buffers b) index) (ib_offset b) (ib_stride b)]) /\
  (unset quad_indirect l -> exists n, takes quad_instances l 1 n /\
     draw_cmds (quad_drawing p vertex) index = (if N.eqb vertex 0 then [] else [CBindVertexBuffer vertex]) ++ [CDraw 3 n]).
Proof.
  intros l vertex index p.
  assert (takes quad_indirect l no_indirect (qp_indirect p)) as (B1 & B2) by option_of rq_set rq_indirect quad_indirect rq_new.
  split.
  - intros b G NZ. cbn [draw_cmds quad_drawing]. unfold quad_draw. rewrite (B1 b G). apply N.eqb_neq in NZ. cbn zeta. rewrite NZ. reflexivity.
  - intros U. exists (qp_instances p). split; [option_of rq_set rq_instances quad_instances rq_new|].
    cbn [draw_cmds quad_drawing]. unfold quad_draw. rewrite (B2 U). destruct index as [|[|]]; reflexivity.
Qed.
Print Assumptions C103_quad_draws.

(** ... and where it draws: whatever the frames and the resets that follow, the viewport and the scissor of the pipeline it draws with
    are the position and the size given last. *)
Theorem C103_quad_viewport : forall l count images buffers ops u w ending position size,
  given quad_position l position \/ unset quad_position l /\ position = (0, 0)%Z ->
  given quad_size l size \/ unset quad_size l /\ size = (0, 0) ->
  let p := new_quad_pass (rq_build l) in
  let programs := pd_pipelines (qp_pipeline p) in
  (programs = 1 \/ count <= programs)%nat -> (1 <= programs)%nat ->
  creator_ok programs count (cr_create (pd_creator (qp_pipeline p))) ->
  Forall (op_of_pass images count) (ops ++ [DwRecord u w ending]) -> draws_nothing (us_body u) -> draws_nothing ending ->
  let x := draws_all (quad_drawer p count images buffers) ops in
  let '(x', (c, cmds)) := draw_record u w ending x in
  exists pipeline s, drawn_with 0 false cmds = [(pipeline, true)] /\ states_of (dw_made x') pipeline = Some s /\
    gp_viewport s = (position, size) /\ gp_scissor s = (position, size).
Proof.
  intros l count images buffers ops u w ending position size Gp Gs p programs pc p1 cr op N1 N2 x.
  assert (takes quad_position l (0, 0)%Z (qp_position p)) as (P1 & P2) by option_of rq_set rq_position quad_position rq_new.
  assert (takes quad_size l (0, 0) (qp_size p)) as (S1 & S2) by option_of rq_set rq_size quad_size rq_new.
  pose proof (C97_states Quad programs count images buffers _ (qp_size p) (qp_position p) CULL_NONE ops u w ending (or_introl eq_refl) pc p1 cr op N1 N2) as T.
  cbv zeta in T. change (draws_all _ ops) with x in T. destruct (draw_record u w ending x) as [x' [c cmds]].
  destruct T as (pipeline & rp & area & info & s & _ & _ & D & St & _ & _ & V & Sc). exists pipeline, s.
  rewrite V, Sc. split; [exact D|]. split; [exact St|].
  assert (qp_position p = position) as -> by (destruct Gp as [G|(U & ->)]; [exact (P1 _ G) | exact (P2 U)]).
  assert (qp_size p = size) as -> by (destruct Gs as [G|(U & ->)]; [exact (S1 _ G) | exact (S2 U)]). split; reflexivity.
Qed.
Print Assumptions C103_quad_viewport.
Definition quad_calls : list rq_call :=
  [RqPosition (3, 4)%Z; RqInstances 5; RqPipeline (PpProgram 9); RqSize (16, 8); RqEnabled 2; RqBase [PpProgram 11; PpPush 1]; RqPipeline (PpLayout 7);
   RqPosition (1, 2)%Z; RqIndex 6; RqTexcoord (true, false); RqInstances 4].
Example C103_quad_applies :
  let p := new_quad_pass (rq_build quad_calls) in
  let w := {| w_u32 := fun a => a + 100; w_bool := fun a => N.eqb a 2 |} in
  let u := first_use addInOutColourView new_rctx in
  given quad_position quad_calls (1, 2)%Z /\ unset quad_isEnabled quad_calls /\ given quad_enabled_var quad_calls 2 /\ unset quad_indirect quad_calls /\
  quad_pipeline_calls quad_calls = [PpProgram 11; PpPush 1; PpLayout 7] /\
  pd_pipelines (qp_pipeline p) = 1%nat /\ cr_create (pd_creator (qp_pipeline p)) = None /\
  Forall (op_of_pass one_target 1) [DwRecord u a_quad nothing_more] /\
  quad_enabled p w = true /\ quad_index p w = 106 /\ draw_cmds (quad_drawing p 5) 0 = [CBindVertexBuffer 5; CDraw 3 4] /\
  qp_texcoord p = (true, false) /\ qp_useTexcoord p = true /\ pp_pipeline_layout (qp_pipeline p) 3 = ([3; 7], [1]).
Proof.
  cbn zeta. unfold quad_calls. split; [|split; [|split; [|split]]].
  - exists (firstn 7 quad_calls), (RqPosition (1, 2)%Z), (skipn 8 quad_calls). split; [reflexivity|]. split; [reflexivity|].
    intros o' [ <- |[ <- |[ <- |[]]]]; reflexivity.
  - intros o' H. repeat (destruct H as [ <- |H]; [reflexivity|]). destruct H.
  - exists (firstn 4 quad_calls), (RqEnabled 2), (skipn 5 quad_calls). split; [reflexivity|]. split; [reflexivity|].
    intros o' H. repeat (destruct H as [ <- |H]; [reflexivity|]). destruct H.
  - intros o' H. repeat (destruct H as [ <- |H]; [reflexivity|]). destruct H.
  - vm_compute. repeat split. repeat constructor.
Qed.

(** C103, a mesh pass. *)
Theorem C103_mesh : forall l made w index,
  let p := new_mesh_pass made (rm_build l) in
  mp_pipeline p = pp_resolve (pp_build (mesh_pipeline_calls l)) /\
  (exists f, takes mesh_isEnabled l (fun _ => true) f /\ mesh_enabled p w = f w) /\
  (exists f, takes mesh_getIndex l (fun _ => 0) f /\ mesh_index p w = f w) /\
  (exists f, takes mesh_indexType l (fun _ => INDEX_UINT32) f /\ mesh_bound_type p w = f w) /\
  (exists f, takes mesh_cull l (fun _ => CULL_NONE) f /\ mp_cull p = f made) /\
  takes mesh_depth l no_depth (mp_depth p) /\
  takes mesh_record l no_record (mp_record p) /\ takes mesh_end l no_record (mp_end p) /\
  (exists vertex indices indirect vertices primitives,
     takes mesh_vertex l [0] vertex /\ takes mesh_indices l [0] indices /\ takes mesh_indirect l no_indirect indirect /\
     takes mesh_vertices l (fun _ => 1) vertices /\ takes mesh_primitives l (fun _ => 1) primitives /\
     draw_cmds (mesh_drawing p w) index =
     (if N.eqb (buffer_at vertex index) 0 then [] else [CBindVertexBuffer (buffer_at vertex index)]) ++
     (if N.eqb (buffer_at indices index) 0 then [] else [CBindIndexBuffer (buffer_at indices index)]) ++
     (if N.eqb (buffer_at (ib_buffers indirect) index) 0
      then [if N.eqb (buffer_at indices index) 0 then CDraw (vertices w) 1 else CDrawIndexed (primitives w) 1]
      else [if N.eqb (buffer_at indices index) 0 then CDrawIndirect (buffer_at (ib_buffers indirect) index) (ib_offset indirect) (ib_stride indirect)
            else CDrawIndexedIndirect (buffer_at (ib_buffers indirect) index) (ib_offset indirect) (ib_stride indirect)])).
Proof.
  intros l made w index p.
  split; [|split; [|split; [|split; [|split; [|split; [|split; [|split]]]]]]].
  - unfold p, new_mesh_pass, mesh_pipeline_calls, rm_build. cbn [mp_pipeline]. f_equal.
    apply (base_fold rm_set rm_base rm_direct rm_whole ltac:(intros [] []; reflexivity)). reflexivity.
  - exists (mp_isEnabled p). split; [option_of rm_set rm_isEnabled mesh_isEnabled rm_new | reflexivity].
  - exists (mp_index p). split; [option_of rm_set rm_index mesh_getIndex rm_new | reflexivity].
  - exists (mp_indexType p). split; [option_of rm_set rm_indexType mesh_indexType rm_new | reflexivity].
  - exists (or_default (fun _ => CULL_NONE) (rm_cull (rm_build l))). split; [option_of rm_set rm_cull mesh_cull rm_new | reflexivity].
  - option_of rm_set rm_depth mesh_depth rm_new.
  - option_of rm_set rm_record mesh_record rm_new.
  - option_of rm_set rm_end mesh_end rm_new.
  - exists (mp_vertex p), (mp_indices p), (mp_indirect p), (mp_vertices p), (mp_primitives p).
    split; [option_of rm_set rm_vertex mesh_vertex rm_new|]. split; [option_of rm_set rm_indices mesh_indices rm_new|].
    split; [option_of rm_set rm_indirect mesh_indirect rm_new|]. split; [option_of rm_set rm_vertices mesh_vertices rm_new|].
    split; [option_of rm_set rm_primitives mesh_primitives rm_new|].
    unfold mesh_drawing. cbn [draw_cmds]. unfold mesh_draw. cbn [mc_vertex mc_index mc_indirect mc_indirectOffset mc_indirectStride mc_vertexCount mc_primitiveCount].
    cbn zeta. destruct (N.eqb (buffer_at (mp_indices p) index) 0), (N.eqb (buffer_at (ib_buffers (mp_indirect p)) index) 0); reflexivity.
Qed.
Print Assumptions C103_mesh.
(** ... and where it draws. *)
Theorem C103_mesh_viewport : forall l made count images buffers ops u w ending position size,
  given mesh_position l position \/ unset mesh_position l /\ position = (0, 0)%Z ->
  given mesh_size l size \/ unset mesh_size l /\ size = (0, 0) ->
  let p := new_mesh_pass made (rm_build l) in
  let programs := pd_pipelines (mp_pipeline p) in
  (programs = 1 \/ count <= programs)%nat -> (1 <= programs)%nat ->
  creator_ok programs count (cr_create (pd_creator (mp_pipeline p))) ->
  Forall (op_of_pass images count) (ops ++ [DwRecord u w ending]) -> draws_nothing (us_body u) -> draws_nothing ending ->
  let x := draws_all (mesh_drawer p count images buffers) ops in
  let '(x', (c, cmds)) := draw_record u w ending x in
  exists pipeline s, drawn_with 0 false cmds = [(pipeline, true)] /\ states_of (dw_made x') pipeline = Some s /\
    gp_viewport s = (position, size) /\ gp_scissor s = (position, size) /\ gp_cull s = mp_cull p.
Proof.
  intros l made count images buffers ops u w ending position size Gp Gs p programs pc p1 cr op N1 N2 x.
  assert (takes mesh_position l (0, 0)%Z (mp_position p)) as (P1 & P2) by option_of rm_set rm_position mesh_position rm_new.
  assert (takes mesh_size l (0, 0) (mp_size p)) as (S1 & S2) by option_of rm_set rm_size mesh_size rm_new.
  pose proof (C97_states Mesh programs count images buffers _ (mp_size p) (mp_position p) (mp_cull p) ops u w ending (or_intror eq_refl) pc p1 cr op N1 N2) as T.
  pose proof (C98_topology Mesh programs count images buffers _ (mp_size p) (mp_position p) (mp_cull p) ops u w ending (or_intror eq_refl) pc p1 cr op N1 N2) as T'.
  cbv zeta in T, T'. change (draws_all _ ops) with x in T. change (draws_all _ ops) with x in T'. destruct (draw_record u w ending x) as [x' [c cmds]].
  destruct T as (pipeline & rp & area & info & s & _ & _ & D & St & _ & _ & V & Sc). exists pipeline, s.
  destruct T' as (pipeline' & s' & D' & St' & K & _). rewrite D in D'. injection D' as <-. rewrite St in St'. injection St' as <-.
  rewrite V, Sc, (proj2 (K eq_refl)). split; [exact D|]. split; [exact St|].
  assert (mp_position p = position) as -> by (destruct Gp as [G|(U & ->)]; [exact (P1 _ G) | exact (P2 U)]).
  assert (mp_size p = size) as -> by (destruct Gs as [G|(U & ->)]; [exact (S1 _ G) | exact (S2 U)]). repeat split.
Qed.
Print Assumptions C103_mesh_viewport.
Definition mesh_calls : list rm_call :=
  [RmVertex [5]; RmPipeline (PpProgram 9); RmVertices (fun w => w_u32 w 1); RmSize (16, 8); RmIndices [6]; RmVertices (fun w => w_u32 w 2);
   RmCull (fun w => w_u32 w 3); RmIndices [0]; RmIndexType (fun _ => 0)].
Example C103_mesh_applies :
  let made := {| w_u32 := fun a => a; w_bool := fun _ => false |} in
  let later := {| w_u32 := fun a => a + 100; w_bool := fun _ => true |} in
  let p := new_mesh_pass made (rm_build mesh_calls) in
  given mesh_size mesh_calls (16, 8) /\ unset mesh_position mesh_calls /\
  pd_pipelines (mp_pipeline p) = 1%nat /\ cr_create (pd_creator (mp_pipeline p)) = None /\
  (* the cull mode is the one of the construction, the count the one of the recording *)
  mp_cull p = 3 /\ draw_cmds (mesh_drawing p later) 0 = [CBindVertexBuffer 5; CDraw 102 1] /\ mesh_enabled p later = true /\ mesh_bound_type p later = 0.
Proof.
  cbn zeta. split; [|split].
  - exists (firstn 3 mesh_calls), (RmSize (16, 8)), (skipn 4 mesh_calls). split; [reflexivity|]. split; [reflexivity|].
    intros o' H. repeat (destruct H as [ <- |H]; [reflexivity|]). destruct H.
  - intros o' H. repeat (destruct H as [ <- |H]; [reflexivity|]). destruct H.
  - vm_compute. repeat split.
Qed.

(** C103, a compute pass.  The group counts are then those of C48. *)
Theorem C103_compute_partial : forall l w,
  let p := new_compute_pass (cp_build l) in
  let s := compute_settings p w in
  cp_pipeline p = pp_resolve (pp_build (compute_pipeline_calls l)) /\
  (forall f, given compute_isEnabled l f -> compute_enabled p w = f w) /\
  (forall v, unset compute_isEnabled l -> given compute_enabled_var l v -> v <> 0 -> compute_enabled p w = w_bool w v) /\
  (unset compute_isEnabled l -> given compute_enabled_var l 0 \/ unset compute_enabled_var l -> compute_enabled p w = true) /\
  (forall f, given compute_index_from l (FromCallback f) -> compute_index p w = Some (f w)) /\
  (forall v, given compute_index_from l (FromVariable v) -> v <> 0 -> compute_index p w = Some (w_u32 w v)) /\
  (unset compute_index_from l -> compute_index p w = Some 0) /\
  takes compute_initialise l no_initialise (cpp_initialise p) /\
  takes compute_recordInto l no_record (cc_record s) /\ takes compute_end l no_record (cc_end s) /\
  takes compute_x l 1 (or_one (cc_x s)) /\ takes compute_y l 1 (or_one (cc_y s)) /\ takes compute_z l 1 (or_one (cc_z s)) /\
  (forall f, given compute_getX l f -> cc_getX s = Some (f w)) /\ (unset compute_getX l -> cc_getX s = None) /\
  (forall f, given compute_getY l f -> cc_getY s = Some (f w)) /\ (unset compute_getY l -> cc_getY s = None) /\
  (forall f, given compute_getZ l f -> cc_getZ s = Some (f w)) /\ (unset compute_getZ l -> cc_getZ s = None) /\
  (forall b, given compute_indirect l b -> cc_indirect s = ib_buffers b /\ cc_indirectOffset s = ib_offset b) /\
  (unset compute_indirect l -> forall index, buffer_at (cc_indirect s) index = 0).
Proof.
  intros l w p s.
  pose proof (option_fold cp_set cp_isEnabled compute_isEnabled ltac:(intros [] []; reflexivity) l cp_new eq_refl) as (E1 & E2).
  assert (takes compute_enabled_var l 0 (cpp_enabled p)) as (V1 & V2) by option_of cp_set cp_enabled compute_enabled_var cp_new.
  set (reads := fun o => match compute_index_from o with Some (FromVariable v) => Some (deref v) | Some (FromCallback f) => Some (fun w => Some (f w)) | None => None end).
  pose proof (option_fold cp_set cp_index reads ltac:(intros [] []; reflexivity) l cp_new eq_refl) as (I1 & I2).
  pose proof (option_fold cp_set cp_getX compute_getX ltac:(intros [] []; reflexivity) l cp_new eq_refl) as (X1 & X2).
  pose proof (option_fold cp_set cp_getY compute_getY ltac:(intros [] []; reflexivity) l cp_new eq_refl) as (Y1 & Y2).
  pose proof (option_fold cp_set cp_getZ compute_getZ ltac:(intros [] []; reflexivity) l cp_new eq_refl) as (Z1 & Z2).
  assert (takes compute_indirect l no_indirect (cpp_indirect p)) as (B1 & B2) by option_of cp_set cp_indirect compute_indirect cp_new.
  change (fold_left cp_set l cp_new) with (cp_build l) in *.
  assert (forall x, given compute_index_from l x -> given reads l (match x with FromVariable v => deref v | FromCallback f => fun w => Some (f w) end)) as R1.
  { intros x (b & o & a & -> & G & A). exists b, o, a. split; [reflexivity|]. unfold reads. rewrite G. split; [destruct x; reflexivity|].
    intros o' H. rewrite (A o' H). reflexivity. }
  assert (unset compute_index_from l -> unset reads l) as R2 by (intros U o H; unfold reads; rewrite (U o H); reflexivity).
  split; [|split; [|split; [|split; [|split; [|split; [|split; [|split; [|split; [|split]]]]]]]]].
  - unfold p, new_compute_pass, compute_pipeline_calls, cp_build. cbn [cp_pipeline]. f_equal.
    apply (base_fold cp_set cp_base cp_direct cp_whole ltac:(intros [] []; reflexivity)). reflexivity.
  - intros f G. unfold compute_enabled, p. cbn [new_compute_pass cpp_isEnabled]. rewrite (E1 f G). reflexivity.
  - intros v U G NZ. unfold compute_enabled. rewrite (V1 v G). unfold p. cbn [new_compute_pass cpp_isEnabled]. rewrite (E2 U).
    apply N.eqb_neq in NZ. rewrite NZ. reflexivity.
  - intros U G. unfold compute_enabled. assert (cpp_enabled p = 0) as -> by (destruct G as [G|G]; [exact (V1 0 G) | exact (V2 G)]).
    unfold p. cbn [new_compute_pass cpp_isEnabled]. rewrite (E2 U). reflexivity.
  - intros f G. unfold compute_index, p. cbn [new_compute_pass cpp_index]. rewrite (I1 _ (R1 _ G)). reflexivity.
  - intros v G NZ. unfold compute_index, p. cbn [new_compute_pass cpp_index]. rewrite (I1 _ (R1 _ G)). cbn [or_default]. unfold deref.
    apply N.eqb_neq in NZ. rewrite NZ. reflexivity.
  - intros U. unfold compute_index, p. cbn [new_compute_pass cpp_index]. rewrite (I2 (R2 U)). reflexivity.
  - option_of cp_set cp_initialise compute_initialise cp_new.
  - option_of cp_set cp_record compute_recordInto cp_new.
  - option_of cp_set cp_end compute_end cp_new.
  - split; [option_of cp_set cp_x compute_x cp_new|]. split; [option_of cp_set cp_y compute_y cp_new|]. split; [option_of cp_set cp_z compute_z cp_new|].
    unfold s, compute_settings. cbn [cc_getX cc_getY cc_getZ cc_indirect cc_indirectOffset]. unfold p. cbn [new_compute_pass cpp_getX cpp_getY cpp_getZ].
    split; [intros f G; rewrite (X1 f G); reflexivity|]. split; [intros U; rewrite (X2 U); reflexivity|].
    split; [intros f G; rewrite (Y1 f G); reflexivity|]. split; [intros U; rewrite (Y2 U); reflexivity|].
    split; [intros f G; rewrite (Z1 f G); reflexivity|]. split; [intros U; rewrite (Z2 U); reflexivity|].
    change (cpp_indirect (new_compute_pass (cp_build l))) with (cpp_indirect p).
    split; [intros b G; rewrite (B1 b G); split; reflexivity|]. intros U index. rewrite (B2 U). destruct index as [|[|]]; reflexivity.
Qed.
Print Assumptions C103_compute_partial.
(** A null index variable is the index 0 of a quad pass; a compute pass reads it. *)
Theorem C103_null_index_refuted : forall w,
  quad_index (new_quad_pass (rq_build [RqIndex 0])) w = 0 /\ compute_index (new_compute_pass (cp_build [CpIndex 0])) w = None.
Proof. intros w. split; reflexivity. Qed.
Print Assumptions C103_null_index_refuted.
Definition compute_calls : list cp_call :=
  [CpX 4; CpIndex 3; CpGetY (fun w => w_u32 w 1); CpPipeline (PpProgram 9); CpGetIndex (fun w => w_u32 w 8); CpX 6; CpEnabled 2; CpIsEnabled (fun w => w_bool w 5)].
Example C103_compute_applies :
  let w := {| w_u32 := fun a => a + 100; w_bool := fun a => N.eqb a 5 |} in
  let p := new_compute_pass (cp_build compute_calls) in
  given compute_x compute_calls 6 /\ unset compute_getX compute_calls /\ unset compute_indirect compute_calls /\
  compute_index p w = Some 108 /\ compute_enabled p w = true /\ or_one (cc_x (compute_settings p w)) = 6 /\ cc_getY (compute_settings p w) = Some 101.
Proof.
  cbn zeta. split; [|split; [|split]].
  - exists (firstn 5 compute_calls), (CpX 6), (skipn 6 compute_calls). split; [reflexivity|]. split; [reflexivity|].
    intros o' H. repeat (destruct H as [ <- |H]; [reflexivity|]). destruct H.
  - intros o' H. repeat (destruct H as [ <- |H]; [reflexivity|]). destruct H.
  - intros o' H. repeat (destruct H as [ <- |H]; [reflexivity|]). destruct H.
  - vm_compute. repeat split.
Qed.

(** C103, the options common to all passes: the number of indices and whether the pass can be recorded again are the last given (the
    quad and mesh passes can always be); the actions before and after the pass all run, in the order they were given; of the actions
    given for one view, the first one counts. *)
Theorem C103_runnable_partial : forall l base,
  let c := ru_build l in
  let p := with_options c base in
  takes run_max l 1%nat (ru_max c) /\ takes run_resettable l false (ru_resettable c) /\
  ru_resettable (drawing_ru c) = true /\ ru_max (drawing_ru c) = ru_max c /\ with_options (drawing_ru c) base = p /\
  rp_pre p = flat_map run_pre l /\ rp_post p = flat_map run_post l /\
  (forall v a, In (v, a) (rp_implicit p) <-> first_action l v a) /\
  (forall v a v' a', In (v, a) (rp_implicit p) -> In (v', a') (rp_implicit p) -> v_id v = v_id v' -> v = v' /\ a = a').
Proof.
  intros l base c p. split; [apply ru_max_takes|]. split; [apply ru_resettable_takes|]. do 3 (split; [reflexivity|]).
  split; [apply (ru_pre_all l ru_new)|]. split; [apply (ru_post_all l ru_new)|].
  split; [intros v a; apply implicit_is_first | intros v a v' a'; apply implicit_once].
Qed.
Print Assumptions C103_runnable_partial.
(** The last action given for a view is not the one that counts. *)
Theorem C103_last_action_refuted : exists l v a, given (fun o => match o with RuImplicit v' a' => if N.eqb (v_id v') (v_id v) then Some a' else None | _ => None end) l a /\
  forall base, ~ In (v, a) (rp_implicit (with_options (ru_build l) base)).
Proof.
  exists [RuImplicit (tv 1 1 37) (AUser 1); RuImplicit (tv 1 1 37) (AUser 2)], (tv 1 1 37), (AUser 2). split.
  - exists [RuImplicit (tv 1 1 37) (AUser 1)], (RuImplicit (tv 1 1 37) (AUser 2)), []. split; [reflexivity|]. split; [reflexivity|]. intros o' [].
  - intros base H. cbn in H. destruct H as [H|[]]. discriminate.
Qed.
Print Assumptions C103_last_action_refuted.

(** The order of two calls on different options does not matter. *)
Theorem C103_order :
  (forall l a b r, pp_independent a b -> pp_build (l ++ a :: b :: r) = pp_build (l ++ b :: a :: r)) /\
  (forall l a b r, rq_independent a b -> rq_build (l ++ a :: b :: r) = rq_build (l ++ b :: a :: r)) /\
  (forall l a b r, rm_independent a b -> rm_build (l ++ a :: b :: r) = rm_build (l ++ b :: a :: r)) /\
  (forall l a b r, cp_independent a b -> cp_build (l ++ a :: b :: r) = cp_build (l ++ b :: a :: r)).
Proof.
  split; [|split; [|split]]; intros l a b r H; [unfold pp_build | unfold rq_build | unfold rm_build | unfold cp_build]; rewrite !fold_left_app; cbn [fold_left].
  - rewrite (pp_commute _ a b H). reflexivity.
  - rewrite (rq_commute _ a b H). reflexivity.
  - rewrite (rm_commute _ a b H). reflexivity.
  - rewrite (cp_commute _ a b H). reflexivity.
Qed.
Print Assumptions C103_order.
Example C103_runnable_applies :
  let l := [RuPre (fun c _ => (c, [CDraw 1 1])); RuMax 3; RuImplicit (tv 2 2 37) (AUser 1); RuPre (fun c _ => (c, [CDraw 2 1])); RuImplicit (tv 1 1 37) (AUser 2); RuMax 2; RuImplicit (tv 2 2 37) (AUser 5)] in
  let p := with_options (ru_build l) (marker_pass 1 [] [] true) in
  given run_max l 2%nat /\ unset run_resettable l /\ first_action l (tv 2 2 37) (AUser 1) /\
  ru_max (ru_build l) = 2%nat /\ rp_implicit p = [(tv 1 1 37, AUser 2); (tv 2 2 37, AUser 1)] /\ length (rp_pre p) = 2%nat /\
  rq_independent (RqSize (1, 1)) (RqIndex 3) /\ rq_independent (RqPipeline (PpProgram 1)) (RqPipeline (PpLayout 2)) /\ ~ rq_independent (RqPipeline (PpProgram 1)) (RqBase []).
Proof.
  cbn zeta. split; [|split; [|split; [|split; [|split; [|split; [|split; [|split]]]]]]]; try reflexivity.
  - eexists [_; _; _; _; _], (RuMax 2), [_]. split; [reflexivity|]. split; [reflexivity|]. intros o' [ <- |[]]. reflexivity.
  - intros o' H. repeat (destruct H as [ <- |H]; [reflexivity|]). destruct H.
  - eexists [_; _], _. split; [reflexivity|]. intros v' a' [H|[H|[]]]; discriminate.
  - left. discriminate.
  - right. do 2 eexists. split; [reflexivity|]. split; [reflexivity|]. discriminate.
  - intros [H|(x & y & _ & H & _)]; [apply H; reflexivity | discriminate].
Qed.
