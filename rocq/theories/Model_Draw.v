(* Model of the quad and mesh passes: their render pass holder (Model_Target.v), their pipeline holder (Model_Pipe.v), the states
   their pipelines are created with and the commands they record, together.
   Sources: source/RenderGraph/RunnablePasses/RenderQuad.cpp:9-64, RenderMesh.cpp:9-66, RenderQuadHolder.cpp:13-216,
   RenderMeshHolder.cpp:11-234. *)
From Verif Require Export Model_Pipe Model_Passes Spec_Target.
From Coq Require Import ZArith.
Local Open Scope N_scope.

(* What is drawn: the configuration when the draw is recorded (the counts of a mesh come from callbacks) *)
Inductive drawing :=
| QuadDraws (vertex : N) (indirect : list N) (offset stride instances : N)
| MeshDraws (m : mesh_config).
(* RenderQuadHolder.cpp:114-130, RenderMeshHolder.cpp:119-146: the end of record *)
Definition draw_cmds (w : drawing) (index : nat) : list cmd :=
  match w with QuadDraws v ind o s n => quad_draw v ind o s n index | MeshDraws m => mesh_draw m index end.

(* VkOffset2D and VkExtent2D.  Simplification: the viewport has floating point members, the conversions of the integers are taken
   as exact. *)
Definition rect := (Z * Z * (N * N))%type.
Definition TOPOLOGY_LIST : N := 3.
Definition TOPOLOGY_STRIP : N := 4.
(* The part of VkGraphicsPipelineCreateInfo that does not come from the pipeline holder and changes: the viewport, the scissor and
   the blend attachments; and the topology and the cull mode *)
Record gpipe := { gp_viewport : rect; gp_scissor : rect; gp_blend : list N; gp_topology : N; gp_cull : N }.

(* A quad or mesh pass.  [dw_states]: m_vpState with m_viewport and m_scissor, m_blendState with m_blendAttachs, m_iaState and
   m_rsState; [dw_made]: the description each pipeline was created with. *)
Record drawer := {
  dw_target : target; dw_driver : driver; dw_pass : ppass; dw_position : Z * Z; dw_states : gpipe; dw_made : list (N * gpipe) }.

(* RenderQuadHolder.cpp:13-60, RenderMeshHolder.cpp:11-60, RenderQuad.cpp:9-38, RenderMesh.cpp:9-39: the constructors; [size] and
   [position] are those of the configuration (0 by default); [cull] is what the callback of a mesh returns then *)
Definition new_drawer (k : pass_kind) (programs count : nat) (images buffers : list attach) (creator : option (nat -> N))
    (size : N * N) (position : Z * Z) (cull : N) : drawer :=
  {| dw_target := new_target size count; dw_driver := {| dr_next := 1; dr_log := []; dr_queue := [] |};
     dw_pass := new_ppass 0 k programs count images buffers creator; dw_position := position;
     dw_states := {| gp_viewport := (0%Z, 0%Z, (0, 0)); gp_scissor := (0%Z, 0%Z, (0, 0)); gp_blend := [];
                     gp_topology := match k with Quad => TOPOLOGY_STRIP | _ => TOPOLOGY_LIST end;
                     gp_cull := match k with Quad => 0 | _ => cull end |};
     dw_made := [] |}.

(* RenderQuadHolder.cpp:71-81, RenderMeshHolder.cpp:73-80: doPreparePipelineStates is called for the first render pass and for
   each other render pass *)
Definition prepares (p : ppass) (rp : N) : bool :=
  match pp_kind p with
  | Quad => orb (negb (pp_prepared p)) (negb (N.eqb (pp_renderPass p) rp))
  | _ => orb (N.eqb (pp_renderPass p) 0) (negb (N.eqb (pp_renderPass p) rp))
  end.
(* RenderQuadHolder.cpp:153-163, 197-216, RenderMeshHolder.cpp:170-180, 215-234: doPreparePipelineStates and doCreateViewportState *)
Definition prepare (position : Z * Z) (size : N * N) (blend : list N) (s : gpipe) : gpipe :=
  {| gp_viewport := (position, size); gp_scissor := (position, size); gp_blend := blend; gp_topology := gp_topology s; gp_cull := gp_cull s |}.

(* The pipelines created by some calls *)
Definition pipelines_of (l : list pevent) : list N := flat_map (fun e => match e with PPipeline h _ _ _ => [h] | _ => [] end) l.
Definition described (s : gpipe) (d d' : driver) : list (N * gpipe) :=
  map (fun h => (h, s)) (pipelines_of (skipn (length (dr_log d)) (dr_log d'))).

(* The render pass made by RenderPassHolder::initialise, when it makes one *)
Definition remade (x : drawer) (u : use) : option N :=
  let i := rp_index (us_pass u) in
  let '(t, _, made) := tg_initialise (us_env u) (us_graph u) (us_pass u) i (dw_target x) (us_ctx u) in
  if made then Some (rd_renderPass (pass_data t i)) else None.

(* RenderQuad.cpp:50-64, RenderMesh.cpp:48-66: doRecordInto, with RenderQuadHolder.cpp:66-137 and RenderMeshHolder.cpp:66-153.  The
   body of the use is the callback recordInto, [ending] the callback end.  The calls on the pipelines and those on the render pass
   are kept apart. *)
Definition draw_record (u : use) (w : drawing) (ending : rctx -> nat -> rctx * list cmd) (x : drawer) : drawer * (rctx * list cmd) :=
  let i := rp_index (us_pass u) in
  let '(t1, _, _) := tg_initialise (us_env u) (us_graph u) (us_pass u) i (dw_target x) (us_ctx u) in
  let s := match remade x u with
           | Some rp => if prepares (dw_pass x) rp then prepare (dw_position x) (tg_size t1) (tg_blend t1) (dw_states x) else dw_states x
           | None => dw_states x
           end in
  let '(d, p, h) := pass_record i (remade x u) (dw_driver x) (dw_pass x) in
  let body := fun c i => (c, bind_cmds h (nth i (ho_sets (pp_holder p)) 0)) >>> (fun c => us_body u c i) >>> emit (draw_cmds w i) in
  let '(t, c, l) := tg_record (us_env u) (us_graph u) (us_pass u) i body (dw_target x) (us_ctx u) in
  ({| dw_target := t; dw_driver := d; dw_pass := p; dw_position := dw_position x; dw_states := s;
      dw_made := dw_made x ++ described s (dw_driver x) d |},
   (c, l) >>> (fun c => ending c i)).

(* RenderQuadHolder.cpp:96-105, RenderMeshHolder.cpp:101-110: resetPipeline; the recording that follows is another operation *)
Definition draw_reset (index : nat) (program : option N) (x : drawer) : drawer :=
  let '(d, p) := pass_reset index program (dw_driver x) (dw_pass x) in
  {| dw_target := dw_target x; dw_driver := d; dw_pass := p; dw_position := dw_position x; dw_states := dw_states x;
     dw_made := dw_made x ++ described (dw_states x) (dw_driver x) d |}.

Inductive dop :=
| DwRecord (u : use) (w : drawing) (ending : rctx -> nat -> rctx * list cmd)
| DwReset (index : nat) (program : option N).
Definition dw_step (x : drawer) (o : dop) : drawer :=
  match o with DwRecord u w ending => fst (draw_record u w ending x) | DwReset i c => draw_reset i c x end.
Definition draws_all (x : drawer) (ops : list dop) : drawer := fold_left dw_step ops x.
