(* Model of the configurations of the passes: the calls that set their options, what the constructors of the passes make of them,
   and what the passes then answer and record.
   Sources: include/RenderGraph/RunnablePasses/PipelineConfig.hpp:125-219, RenderQuadConfig.hpp:18-190, RenderMeshConfig.hpp:36-250,
   ComputePass.hpp:22-260, include/RenderGraph/RunnablePass.hpp:72-112, 181-189, 358-418,
   source/RenderGraph/RunnablePasses/PipelineHolder.cpp:14-42, 112-127, RenderQuadHolder.cpp:13-60, 132-151, RenderMeshHolder.cpp:11-60,
   148-168, ComputePass.cpp:14-50, 72-105, RenderQuad.cpp:9-38, RenderMesh.cpp:9-39. *)
From Verif Require Export Model_Draw.
From Coq Require Import ZArith.
Local Open Scope N_scope.

(* The variables of the user: what the pointers of the options lead to.  A pointer is an address, 0 is null. *)
Record world := { w_u32 : N -> N; w_bool : N -> bool }.
(* FrameGraphPrerequisites.hpp: GetValueCallbackT, a callback without argument.  Simplification: it reads the variables of the user
   and changes nothing. *)
Definition getter (A : Type) := world -> A.
(* RunnablePass.hpp:141: RecordCallback *)
Definition recorder := rctx -> nat -> rctx * list cmd.
(* FrameGraphPrerequisites.hpp:319-333: IndirectBuffer, in the order of its constructor *)
Record indirect := { ib_buffers : list N; ib_stride : N; ib_offset : N }.
(* PipelineConfig.hpp:13-17: ProgramCreator; the function may be empty *)
Record creator := { cr_max : nat; cr_create : option (nat -> N) }.

(* Defaults: PipelineConfig.hpp:38-124, FrameGraphPrerequisites.hpp:383-391, RunnablePass.hpp:358-418, RenderMeshConfig.hpp:252-290,
   RunnableGraph.hpp:33-41 *)
Definition no_indirect : indirect := {| ib_buffers := [0]; ib_stride := 0; ib_offset := 0 |}.
Definition no_record : recorder := fun c _ => (c, []).
Definition no_initialise : nat -> list N := fun _ => [].
Definition no_depth : N := 0.
Definition no_creator : creator := {| cr_max := 0; cr_create := None |}.
Definition INDEX_UINT32 : N := 1.
Definition CULL_NONE : N := 0.
Definition or_default {A} (d : A) (o : option A) : A := match o with Some a => a | None => d end.

(* PipelineConfig.hpp:125-208: pp::Config and its setters.  A program, a descriptor set layout and a push constant range are numbers. *)
Record pp_config := MkPp {
  po_programs : option (list N); po_creator : option creator; po_layouts : option (list N); po_push : option (list N) }.
Inductive pp_call :=
| PpProgram (p : N) | PpPrograms (l : list N) | PpCreator (c : creator) | PpLayout (l : N) | PpLayouts (l : list N)
| PpPush (r : N) | PpPushes (l : list N).
Definition pp_new : pp_config := MkPp None None None None.
(* PipelineConfig.hpp:141-204.  m_programs = { config } and m_layouts = { config } make a vector of one element *)
Definition pp_set (c : pp_config) (o : pp_call) : pp_config :=
  let '(MkPp programs create layouts push) := c in
  match o with
  | PpProgram p => MkPp (Some [p]) create layouts push
  | PpPrograms l => MkPp (Some l) create layouts push
  | PpCreator f => MkPp programs (Some f) layouts push
  | PpLayout l => MkPp programs create (Some [l]) push
  | PpLayouts l => MkPp programs create (Some l) push
  | PpPush r => MkPp programs create layouts (Some [r])
  | PpPushes l => MkPp programs create layouts (Some l)
  end.
Definition pp_build (l : list pp_call) : pp_config := fold_left pp_set l pp_new.

(* std::vector::resize; an empty program is 0 *)
Definition resize (n : nat) (l : list N) : list N := firstn n l ++ repeat 0 (n - length l).
(* PipelineHolder.cpp:14-42: the base configuration of the holder; its pipelines are as many as its programs *)
Record pp_data := { pd_programs : list N; pd_creator : creator; pd_layouts : list N; pd_push : list N; pd_pipelines : nat }.
Definition pp_resolve (c : pp_config) : pp_data :=
  let cr := or_default no_creator (po_creator c) in
  let l := or_default [] (po_programs c) in
  let programs := match cr_create cr with Some _ => resize (cr_max cr) l | None => l end in
  {| pd_programs := programs; pd_creator := cr; pd_layouts := or_default [] (po_layouts c); pd_push := or_default [] (po_push c);
     pd_pipelines := match cr_create cr with Some _ => cr_max cr | None => length l end |}.
(* PipelineHolder.cpp:112-127: getProgram; None is a failed assertion *)
Definition pp_program (d : pp_data) (index : nat) : option N :=
  match cr_create (pd_creator d) with
  | Some f => if Nat.ltb index (cr_max (pd_creator d))
              then let l := set_nth index (f index) (pd_programs d) in
                   if Nat.eqb (length l) 1 then nth_error l 0 else nth_error l index
              else None
  | None => if Nat.eqb (length (pd_programs d)) 1 then nth_error (pd_programs d) 0 else nth_error (pd_programs d) index
  end.
(* PipelineHolder.cpp:352-374: doCreatePipelineLayout, [own] is the layout made for the attachments of the pass *)
Definition pp_pipeline_layout (d : pp_data) (own : N) : list N * list N := (own :: pd_layouts d, pd_push d).

(* RenderQuadConfig.hpp:162-174: rq::Config *)
Record rq_config := MkRq {
  rq_base : pp_config; rq_texcoord : option (bool * bool); rq_position : option (Z * Z); rq_depth : option N; rq_index : option N;
  rq_enabled : option N; rq_isEnabled : option (getter bool); rq_record : option recorder; rq_end : option recorder; rq_instances :
  option N; rq_size : option (N * N); rq_indirect : option indirect }.
(* RenderQuadConfig.hpp:18-160: its setters.  [RqPipeline] stands for the setters forwarded to the base configuration (the push
   constants can only be given in a base configuration), [RqBase] is baseConfig with a configuration made by the calls given. *)
Inductive rq_call :=
| RqPipeline (o : pp_call) | RqBase (l : list pp_call) | RqTexcoord (t : bool * bool) | RqSize (s : N * N) | RqPosition (p : Z * Z)
| RqDepth (d : N) | RqIndex (p : N) | RqEnabled (p : N) | RqIsEnabled (f : getter bool) | RqRecord (f : recorder) | RqEnd (f : recorder)
| RqInstances (n : N) | RqIndirect (b : indirect).
Definition rq_new : rq_config := MkRq pp_new None None None None None None None None None None None.
(* RenderQuadConfig.hpp:22-160 *)
Definition rq_set (c : rq_config) (o : rq_call) : rq_config :=
  let 'MkRq base texcoord position depth index enabled isEnabled record ending instances size indirect := c in
  match o with
  | RqPipeline o => MkRq (pp_set base o) texcoord position depth index enabled isEnabled record ending instances size indirect
  | RqBase l => MkRq (pp_build l) texcoord position depth index enabled isEnabled record ending instances size indirect
  | RqTexcoord t => MkRq base (Some t) position depth index enabled isEnabled record ending instances size indirect
  | RqSize s => MkRq base texcoord position depth index enabled isEnabled record ending instances (Some s) indirect
  | RqPosition p => MkRq base texcoord (Some p) depth index enabled isEnabled record ending instances size indirect
  | RqDepth d => MkRq base texcoord position (Some d) index enabled isEnabled record ending instances size indirect
  | RqIndex p => MkRq base texcoord position depth (Some p) enabled isEnabled record ending instances size indirect
  | RqEnabled p => MkRq base texcoord position depth index (Some p) isEnabled record ending instances size indirect
  | RqIsEnabled f => MkRq base texcoord position depth index enabled (Some f) record ending instances size indirect
  | RqRecord f => MkRq base texcoord position depth index enabled isEnabled (Some f) ending instances size indirect
  | RqEnd f => MkRq base texcoord position depth index enabled isEnabled record (Some f) instances size indirect
  | RqInstances n => MkRq base texcoord position depth index enabled isEnabled record ending (Some n) size indirect
  | RqIndirect b => MkRq base texcoord position depth index enabled isEnabled record ending instances size (Some b)
  end.
Definition rq_build (l : list rq_call) : rq_config := fold_left rq_set l rq_new.

(* RenderQuadHolder.cpp:13-35, RenderQuad.cpp:27-37: what the constructors keep *)
Record quad_pass := {
  qp_pipeline : pp_data; qp_texcoord : bool * bool; qp_useTexcoord : bool; qp_position : Z * Z; qp_depth : N; qp_index : N;
  qp_enabled : N; qp_isEnabled : option (getter bool); qp_record : recorder; qp_end : recorder; qp_instances : N; qp_size : N * N;
  qp_indirect : indirect }.
Definition new_quad_pass (c : rq_config) : quad_pass :=
  {| qp_pipeline := pp_resolve (rq_base c); qp_texcoord := or_default (false, false) (rq_texcoord c);
     qp_useTexcoord := match rq_texcoord c with Some _ => true | None => false end;
     qp_position := or_default (0%Z, 0%Z) (rq_position c); qp_depth := or_default no_depth (rq_depth c);
     qp_index := or_default 0 (rq_index c); qp_enabled := or_default 0 (rq_enabled c); qp_isEnabled := rq_isEnabled c;
     qp_record := or_default no_record (rq_record c); qp_end := or_default no_record (rq_end c);
     qp_instances := or_default 1 (rq_instances c); qp_size := or_default (0, 0) (rq_size c);
     qp_indirect := or_default no_indirect (rq_indirect c) |}.
(* RenderQuadHolder.cpp:139-144: getPassIndex *)
Definition quad_index (p : quad_pass) (w : world) : N := if N.eqb (qp_index p) 0 then 0 else w_u32 w (qp_index p).
(* RenderQuadHolder.cpp:146-151: isEnabled *)
Definition quad_enabled (p : quad_pass) (w : world) : bool :=
  match qp_isEnabled p with
  | Some f => f w
  | None => if N.eqb (qp_enabled p) 0 then true else w_bool w (qp_enabled p)
  end.
(* RenderQuadHolder.cpp:114-130: the draw; [vertex] is the vertex buffer made by the graph *)
Definition quad_drawing (p : quad_pass) (vertex : N) : drawing :=
  QuadDraws vertex (ib_buffers (qp_indirect p)) (ib_offset (qp_indirect p)) (ib_stride (qp_indirect p)) (qp_instances p).
(* The pass as modelled in Model_Draw.v; its programs are numbered by their position *)
Definition quad_drawer (p : quad_pass) (count : nat) (images buffers : list attach) : drawer :=
  new_drawer Quad (pd_pipelines (qp_pipeline p)) count images buffers (cr_create (pd_creator (qp_pipeline p))) (qp_size p) (qp_position p) CULL_NONE.

(* RenderMeshConfig.hpp:220-235: rm::Config.  Of the vertex buffer only the buffers are kept here (its attributes are those of C99). *)
Record rm_config := MkRm {
  rm_base : pp_config; rm_position : option (Z * Z); rm_depth : option N; rm_index : option (getter N); rm_isEnabled : option
  (getter bool); rm_record : option recorder; rm_end : option recorder; rm_primitives : option (getter N); rm_vertices : option
  (getter N); rm_indexType : option (getter N); rm_cull : option (getter N); rm_size : option (N * N); rm_vertex : option (list N);
  rm_indices : option (list N); rm_indirect : option indirect }.
(* RenderMeshConfig.hpp:36-218: its setters *)
Inductive rm_call :=
| RmPipeline (o : pp_call) | RmBase (l : list pp_call) | RmSize (s : N * N) | RmPosition (p : Z * Z) | RmDepth (d : N)
| RmIndex (f : getter N) | RmIsEnabled (f : getter bool) | RmRecord (f : recorder) | RmEnd (f : recorder) | RmVertex (b : list N)
| RmIndices (b : list N) | RmIndirect (b : indirect) | RmPrimitives (f : getter N) | RmVertices (f : getter N)
| RmIndexType (f : getter N) | RmCull (f : getter N).
Definition rm_new : rm_config := MkRm pp_new None None None None None None None None None None None None None None.
(* RenderMeshConfig.hpp:40-218 *)
Definition rm_set (c : rm_config) (o : rm_call) : rm_config :=
  let 'MkRm base position depth index isEnabled record ending primitives vertices indexType cull size vertex indices indirect := c in
  match o with
  | RmPipeline o => MkRm (pp_set base o) position depth index isEnabled record ending primitives vertices indexType cull size vertex indices indirect
  | RmBase l => MkRm (pp_build l) position depth index isEnabled record ending primitives vertices indexType cull size vertex indices indirect
  | RmSize s => MkRm base position depth index isEnabled record ending primitives vertices indexType cull (Some s) vertex indices indirect
  | RmPosition p => MkRm base (Some p) depth index isEnabled record ending primitives vertices indexType cull size vertex indices indirect
  | RmDepth d => MkRm base position (Some d) index isEnabled record ending primitives vertices indexType cull size vertex indices indirect
  | RmIndex f => MkRm base position depth (Some f) isEnabled record ending primitives vertices indexType cull size vertex indices indirect
  | RmIsEnabled f => MkRm base position depth index (Some f) record ending primitives vertices indexType cull size vertex indices indirect
  | RmRecord f => MkRm base position depth index isEnabled (Some f) ending primitives vertices indexType cull size vertex indices indirect
  | RmEnd f => MkRm base position depth index isEnabled record (Some f) primitives vertices indexType cull size vertex indices indirect
  | RmVertex b => MkRm base position depth index isEnabled record ending primitives vertices indexType cull size (Some b) indices indirect
  | RmIndices b => MkRm base position depth index isEnabled record ending primitives vertices indexType cull size vertex (Some b) indirect
  | RmIndirect b => MkRm base position depth index isEnabled record ending primitives vertices indexType cull size vertex indices (Some b)
  | RmPrimitives f => MkRm base position depth index isEnabled record ending (Some f) vertices indexType cull size vertex indices indirect
  | RmVertices f => MkRm base position depth index isEnabled record ending primitives (Some f) indexType cull size vertex indices indirect
  | RmIndexType f => MkRm base position depth index isEnabled record ending primitives vertices (Some f) cull size vertex indices indirect
  | RmCull f => MkRm base position depth index isEnabled record ending primitives vertices indexType (Some f) size vertex indices indirect
  end.
Definition rm_build (l : list rm_call) : rm_config := fold_left rm_set l rm_new.

(* RenderMeshHolder.cpp:11-60, RenderMesh.cpp:27-38: what the constructors keep.  The cull mode is asked when the pass is made
   (RenderMeshHolder.cpp:53), [w] are the variables then. *)
Record mesh_pass := {
  mp_pipeline : pp_data; mp_position : Z * Z; mp_depth : N; mp_index : getter N; mp_isEnabled : getter bool; mp_record : recorder;
  mp_end : recorder; mp_primitives : getter N; mp_vertices : getter N; mp_indexType : getter N; mp_cull : N; mp_size : N * N;
  mp_vertex : list N; mp_indices : list N; mp_indirect : indirect }.
Definition new_mesh_pass (w : world) (c : rm_config) : mesh_pass :=
  {| mp_pipeline := pp_resolve (rm_base c); mp_position := or_default (0%Z, 0%Z) (rm_position c);
     mp_depth := or_default no_depth (rm_depth c); mp_index := or_default (fun _ => 0) (rm_index c);
     mp_isEnabled := or_default (fun _ => true) (rm_isEnabled c); mp_record := or_default no_record (rm_record c);
     mp_end := or_default no_record (rm_end c); mp_primitives := or_default (fun _ => 1) (rm_primitives c);
     mp_vertices := or_default (fun _ => 1) (rm_vertices c); mp_indexType := or_default (fun _ => INDEX_UINT32) (rm_indexType c);
     mp_cull := or_default (fun _ => CULL_NONE) (rm_cull c) w; mp_size := or_default (0, 0) (rm_size c);
     mp_vertex := or_default [0] (rm_vertex c); mp_indices := or_default [0] (rm_indices c);
     mp_indirect := or_default no_indirect (rm_indirect c) |}.
(* RenderMeshHolder.cpp:155-163: getPassIndex and isEnabled *)
Definition mesh_index (p : mesh_pass) (w : world) : N := mp_index p w.
Definition mesh_enabled (p : mesh_pass) (w : world) : bool := mp_isEnabled p w.
(* RenderMeshHolder.cpp:119-146: the draw, [w] are the variables when it is recorded *)
Definition mesh_drawing (p : mesh_pass) (w : world) : drawing :=
  MeshDraws {| mc_vertex := mp_vertex p; mc_index := mp_indices p; mc_indirect := ib_buffers (mp_indirect p);
               mc_indirectOffset := ib_offset (mp_indirect p); mc_indirectStride := ib_stride (mp_indirect p);
               mc_vertexCount := mp_vertices p w; mc_primitiveCount := mp_primitives p w |}.
(* RenderMeshHolder.cpp:129, 140: the type given with the index buffer when one is bound *)
Definition mesh_bound_type (p : mesh_pass) (w : world) : N := mp_indexType p w.
Definition mesh_drawer (p : mesh_pass) (count : nat) (images buffers : list attach) : drawer :=
  new_drawer Mesh (pd_pipelines (mp_pipeline p)) count images buffers (cr_create (pd_creator (mp_pipeline p))) (mp_size p) (mp_position p) (mp_cull p).

(* ComputePass.hpp:223-237: cp::Config.  The index callback may be the one made from a pointer: it answers None when the pointer
   is null (undefined behaviour). *)
Record cp_config := MkCp {
  cp_base : pp_config; cp_initialise : option (nat -> list N); cp_enabled : option N; cp_isEnabled : option (getter bool); cp_index
  : option (world -> option N); cp_record : option recorder; cp_end : option recorder; cp_x : option N; cp_y : option N; cp_z :
  option N; cp_getX : option (getter N); cp_getY : option (getter N); cp_getZ : option (getter N); cp_indirect : option indirect }.
(* ComputePass.hpp:22-221: its setters *)
Inductive cp_call :=
| CpPipeline (o : pp_call) | CpBase (l : list pp_call) | CpIndex (p : N) | CpEnabled (p : N) | CpGetIndex (f : getter N)
| CpIsEnabled (f : getter bool) | CpRecord (f : recorder) | CpInitialise (f : nat -> list N) | CpEnd (f : recorder)
| CpX (n : N) | CpY (n : N) | CpZ (n : N) | CpGetX (f : getter N) | CpGetY (f : getter N) | CpGetZ (f : getter N) | CpIndirect (b : indirect).
(* ComputePass.hpp:84-91: the callback made by passIndex *)
Definition deref (p : N) : world -> option N := fun w => if N.eqb p 0 then None else Some (w_u32 w p).
Definition cp_new : cp_config := MkCp pp_new None None None None None None None None None None None None None.
(* ComputePass.hpp:26-221 *)
Definition cp_set (c : cp_config) (o : cp_call) : cp_config :=
  let 'MkCp base initialise enabled isEnabled index record ending x y z getX getY getZ indirect := c in
  match o with
  | CpPipeline o => MkCp (pp_set base o) initialise enabled isEnabled index record ending x y z getX getY getZ indirect
  | CpBase l => MkCp (pp_build l) initialise enabled isEnabled index record ending x y z getX getY getZ indirect
  | CpIndex p => MkCp base initialise enabled isEnabled (Some (deref p)) record ending x y z getX getY getZ indirect
  | CpEnabled p => MkCp base initialise (Some p) isEnabled index record ending x y z getX getY getZ indirect
  | CpGetIndex f => MkCp base initialise enabled isEnabled (Some (fun w => Some (f w))) record ending x y z getX getY getZ indirect
  | CpIsEnabled f => MkCp base initialise enabled (Some f) index record ending x y z getX getY getZ indirect
  | CpRecord f => MkCp base initialise enabled isEnabled index (Some f) ending x y z getX getY getZ indirect
  | CpInitialise f => MkCp base (Some f) enabled isEnabled index record ending x y z getX getY getZ indirect
  | CpEnd f => MkCp base initialise enabled isEnabled index record (Some f) x y z getX getY getZ indirect
  | CpX n => MkCp base initialise enabled isEnabled index record ending (Some n) y z getX getY getZ indirect
  | CpY n => MkCp base initialise enabled isEnabled index record ending x (Some n) z getX getY getZ indirect
  | CpZ n => MkCp base initialise enabled isEnabled index record ending x y (Some n) getX getY getZ indirect
  | CpGetX f => MkCp base initialise enabled isEnabled index record ending x y z (Some f) getY getZ indirect
  | CpGetY f => MkCp base initialise enabled isEnabled index record ending x y z getX (Some f) getZ indirect
  | CpGetZ f => MkCp base initialise enabled isEnabled index record ending x y z getX getY (Some f) indirect
  | CpIndirect b => MkCp base initialise enabled isEnabled index record ending x y z getX getY getZ (Some b)
  end.
Definition cp_build (l : list cp_call) : cp_config := fold_left cp_set l cp_new.

(* ComputePass.cpp:14-50: what the constructor keeps.  The constants stay optional here: dispatch_counts gives them their default. *)
Record compute_pass := {
  cp_pipeline : pp_data; cpp_initialise : nat -> list N; cpp_enabled : N; cpp_isEnabled : option (getter bool); cpp_index : world -> option N;
  cpp_record : recorder; cpp_end : recorder; cpp_x : N; cpp_y : N; cpp_z : N;
  cpp_getX : option (getter N); cpp_getY : option (getter N); cpp_getZ : option (getter N); cpp_indirect : indirect }.
Definition new_compute_pass (c : cp_config) : compute_pass :=
  {| cp_pipeline := pp_resolve (cp_base c); cpp_initialise := or_default no_initialise (cp_initialise c);
     cpp_enabled := or_default 0 (cp_enabled c); cpp_isEnabled := cp_isEnabled c;
     cpp_index := or_default (fun _ => Some 0) (cp_index c);
     cpp_record := or_default no_record (cp_record c); cpp_end := or_default no_record (cp_end c);
     cpp_x := or_default 1 (cp_x c); cpp_y := or_default 1 (cp_y c); cpp_z := or_default 1 (cp_z c);
     cpp_getX := cp_getX c; cpp_getY := cp_getY c; cpp_getZ := cp_getZ c;
     cpp_indirect := or_default no_indirect (cp_indirect c) |}.
(* ComputePass.cpp:72-75: doGetPassIndex *)
Definition compute_index (p : compute_pass) (w : world) : option N := cpp_index p w.
(* ComputePass.cpp:77-82: doIsEnabled *)
Definition compute_enabled (p : compute_pass) (w : world) : bool :=
  match cpp_isEnabled p with
  | Some f => f w
  | None => if N.eqb (cpp_enabled p) 0 then true else w_bool w (cpp_enabled p)
  end.
(* ComputePass.cpp:84-105: the configuration as doRecordInto reads it (Model_Passes.v), [w] are the variables when it is recorded *)
Definition compute_settings (p : compute_pass) (w : world) : compute_config :=
  let ask (o : option (getter N)) := match o with Some f => Some (f w) | None => None end in
  {| cc_x := Some (cpp_x p); cc_y := Some (cpp_y p); cc_z := Some (cpp_z p);
     cc_getX := ask (cpp_getX p); cc_getY := ask (cpp_getY p); cc_getZ := ask (cpp_getZ p);
     cc_indirect := ib_buffers (cpp_indirect p); cc_indirectOffset := ib_offset (cpp_indirect p);
     cc_record := cpp_record p; cc_end := cpp_end p |}.

(* RunnablePass.hpp:186-189: getIndex *)
Definition INVALID_INDEX : N := 2 ^ 32 - 1.
Definition pass_index (enabled : bool) (index : N) : N := if enabled then index else INVALID_INDEX.

(* RunnablePass.hpp:72-112: ru::Config, keyed by the identifier of the view; maxPassCount and resettable are members the user sets *)
Record ru_config := MkRu {
  ru_max : nat; ru_resettable : bool; ru_pre : list recorder; ru_post : list recorder; ru_implicit : nmap (view * action) }.
Inductive ru_call :=
| RuMax (n : nat) | RuResettable (b : bool) | RuPre (a : recorder) | RuPost (a : recorder) | RuImplicit (v : view) (a : action).
Definition ru_new : ru_config := MkRu 1 false [] [] [].
(* RunnablePass.hpp:80-106 *)
Definition ru_set (c : ru_config) (o : ru_call) : ru_config :=
  let '(MkRu n r pre post implicit) := c in
  match o with
  | RuMax n => MkRu n r pre post implicit
  | RuResettable r => MkRu n r pre post implicit
  | RuPre a => MkRu n r (pre ++ [a]) post implicit
  | RuPost a => MkRu n r pre (post ++ [a]) implicit
  | RuImplicit v a => MkRu n r pre post (minsert (v_id v) (v, a) implicit)
  end.
Definition ru_build (l : list ru_call) : ru_config := fold_left ru_set l ru_new.
(* RenderQuad.cpp:22-26, RenderMesh.cpp:22-26: the configuration the quad and mesh passes give to RunnablePass; ComputePass.cpp:28,
   RenderPass.cpp:106: the others give theirs *)
Definition drawing_ru (c : ru_config) : ru_config :=
  MkRu (ru_max c) true (ru_pre c) (ru_post c) (ru_implicit c).
(* RunnablePass.cpp:245-299, 363-501: what a runnable pass makes of it: the number of its indices and the actions of its recordings *)
Definition with_options (c : ru_config) (p : rpass) : rpass :=
  {| rp_id := rp_id p; rp_images := rp_images p; rp_buffers := rp_buffers p; rp_index := rp_index p; rp_compute := rp_compute p;
     rp_state := rp_state p; rp_record := rp_record p; rp_pre := ru_pre c; rp_post := ru_post c;
     rp_implicit := map snd (ru_implicit c) |}.
