(* Model of the pipelines of the passes, of their descriptors and of the deletion queue of the context.
   Sources: source/RenderGraph/RunnablePasses/PipelineHolder.cpp, ComputePass.cpp:52-105, RenderQuadHolder.cpp:66-149, 165-195,
   RenderMeshHolder.cpp:66-149, RenderQuad.cpp:43-64, RenderMesh.cpp:40-64, RenderPass.cpp:16-41, RunnablePass.cpp:308-315, 372-380,
   RunnableGraph.cpp:287-415, include/RenderGraph/GraphContext.hpp:347-368. *)
From Verif Require Export Model_Passes.
Local Open Scope N_scope.

(* The objects of a pipeline holder. *)
Inductive kind := KPipeline | KPool | KSetLayout | KLayout.
(* VkDescriptorSetLayoutBinding: binding, type and count (the stages are not represented) *)
Record dbinding := { db_binding : N; db_type : N; db_count : N }.
(* WriteDescriptorSet.hpp:77-80: what a descriptor designates: an image view in a layout, with its sampler (the description of it); a range of a
   buffer; a view of a buffer.  Attachment.cpp:82 also fills bufferViewInfo, which is given to no call. *)
Inductive dcontent :=
| DImage (sampler : option N) (view layout : N)
| DBuffer (buffer offset size : N)
| DTexel (view : N).
(* VkWriteDescriptorSet (WriteDescriptorSet.hpp:13-35), with what it designates *)
Record dwrite := { dw_binding : N; dw_type : N; dw_count : N; dw_content : dcontent }.

(* The calls to the driver, and the submissions. *)
Inductive pevent :=
| PCreated (k : kind) (h : N)
| PDestroyed (k : kind) (h : N)
| PPipeline (h program renderPass layout : N)            (* description of a pipeline; no render pass (0) for compute *)
| PSetLayout (h : N) (bindings : list dbinding)          (* description of a set layout *)
| PPool (h maxSets : N) (sizes : list (N * N))           (* description of a pool: (type, count) *)
| PAllocated (pool layout set : N)
| PUpdated (set : N) (writes : list dwrite)
| PWaited (graph : N)
| PSubmitted (graph : N) (pipelines : list N).

(* PipelineHolder.hpp: the members.  [ho_programs] is the number of programs, which is also the number of
   pipelines (PipelineHolder.cpp:28-36); with a program creator it is its maximum count, and the pass
   indices stay below it (assertion of PipelineHolder.cpp:116). *)
Record pholder := {
  ho_programs : nat; ho_pipelines : list N; ho_sets : list N;
  ho_pool : N; ho_setLayout : N; ho_layout : N; ho_bindings : list dbinding }.
(* PipelineHolder.cpp:14-42: constructor *)
Definition new_holder (programs maxPassCount : nat) : pholder :=
  {| ho_programs := programs; ho_pipelines := repeat 0 programs; ho_sets := repeat 0 maxPassCount;
     ho_pool := 0; ho_setLayout := 0; ho_layout := 0; ho_bindings := [] |}.

(* The driver: next handle, calls so far; and the deletion queue of the context, whose functions all
   destroy one pipeline (PipelineHolder.cpp:216 is the only push). *)
Record driver := { dr_next : N; dr_log : list pevent; dr_queue : list N }.
Definition fresh (d : driver) (e : N -> list pevent) : driver * N :=
  ({| dr_next := dr_next d + 1; dr_log := dr_log d ++ e (dr_next d); dr_queue := dr_queue d |}, dr_next d).
Definition log (d : driver) (e : list pevent) : driver := {| dr_next := dr_next d; dr_log := dr_log d ++ e; dr_queue := dr_queue d |}.
Definition push (d : driver) (h : N) : driver := {| dr_next := dr_next d; dr_log := dr_log d; dr_queue := dr_queue d ++ [h] |}.

Fixpoint set_nth {A} (i : nat) (x : A) (l : list A) : list A :=
  match l, i with [], _ => [] | _ :: r, O => x :: r | y :: r, S i => y :: set_nth i x r end.

(* RenderPass.cpp:16-41: getBindingsSizes, on uint32_t *)
Fixpoint add_size (t n : N) (l : list (N * N)) : list (N * N) :=
  match l with
  | [] => [(t, n)]
  | (t', n') :: r => if N.eqb t t' then (t', u32 (n' + n)) :: r else (t', n') :: add_size t n r
  end.
Definition getBindingsSizes (bindings : list dbinding) (maxSets : N) : list (N * N) :=
  fold_left (fun l b => add_size (db_type b) (u32 (db_count b * maxSets)) l) bindings [].

(* PipelineHolder.cpp:298-335: doFillDescriptorBindings *)
Definition isUniformView (a : attach) : bool := andb (isBuffer a) (andb (hasFlag (ba_flags a) BF_Uniform) (hasFlag (ba_flags a) BF_View)).
Definition isStorageBView (a : attach) : bool := andb (isBuffer a) (andb (hasFlag (ba_flags a) BF_Storage) (hasFlag (ba_flags a) BF_View)).
Definition binding_of (a : attach) : dbinding := {| db_binding := at_binding a; db_type := a_getDescriptorType a; db_count := 1 |}.
Definition fill_bindings (images buffers : list attach) : list dbinding :=
  map binding_of (filter (fun a => orb (isSampledView a) (isStorageView a)) images) ++
  map binding_of (filter (fun a => orb (orb (isUniformBuffer a) (isStorageBuffer a)) (orb (isUniformView a) (isStorageBView a))) buffers).

(* PipelineHolder.cpp:232-296: the writes of createDescriptorSet.  An image write has one image info
   (WriteDescriptorSet.hpp:22-31), a buffer write the count given by Attachment.cpp:580-584 and the content of Attachment.cpp:69-89. *)
Definition image_write (a : attach) (index : nat) : list dwrite :=
  if isSampledView a
  then [{| dw_binding := at_binding a; dw_type := DT_COMBINED; dw_count := 1; dw_content := DImage (Some (ia_misc a)) (v_id (attach_view a index)) L_SHADER_READ_ONLY |}]
  else if isStorageView a
  then [{| dw_binding := at_binding a; dw_type := DT_STORAGE_IMAGE; dw_count := 1; dw_content := DImage None (v_id (attach_view a index)) L_GENERAL |}]
  else [].
Definition buffer_write (a : attach) (index : nat) : list dwrite :=
  if orb (isStorageBuffer a) (isUniformBuffer a)
  then [{| dw_binding := at_binding a; dw_type := a_getDescriptorType a; dw_count := 1;
           dw_content := if hasFlag (ba_flags a) BF_View then DTexel (ba_view a) else DBuffer (attach_buffer a index) (ba_offset a) (ba_size a) |}]
  else [].
Definition set_writes (images buffers : list attach) (index : nat) : list dwrite :=
  flat_map (fun a => image_write a index) images ++ flat_map (fun a => buffer_write a index) buffers.

(* PipelineHolder.cpp:49-58, 337-415: initialise *)
Definition ho_initialise (images buffers : list attach) (d : driver) (h : pholder) : driver * pholder :=
  if N.eqb (ho_layout h) 0 then
    let bindings := fill_bindings images buffers in
    let maxSets := u32 (N.of_nat (length (ho_sets h))) in
    let '(d, sl) := fresh d (fun n => [PCreated KSetLayout n; PSetLayout n bindings]) in
    let '(d, pl) := fresh d (fun n => [PCreated KLayout n]) in
    let '(d, po) := fresh d (fun n => [PCreated KPool n; PPool n maxSets (getBindingsSizes bindings maxSets)]) in
    (d, {| ho_programs := ho_programs h; ho_pipelines := ho_pipelines h; ho_sets := ho_sets h;
           ho_pool := po; ho_setLayout := sl; ho_layout := pl; ho_bindings := bindings |})
  else (d, h).

(* PipelineHolder.cpp:60-110: cleanup.  The null handles are not destroyed. *)
Definition destroy_event (k : kind) (h : N) : list pevent := if N.eqb h 0 then [] else [PDestroyed k h].
Definition ho_cleanup (d : driver) (h : pholder) : driver * pholder :=
  (log d (destroy_event KPool (ho_pool h) ++ flat_map (destroy_event KPipeline) (ho_pipelines h)
          ++ destroy_event KLayout (ho_layout h) ++ destroy_event KSetLayout (ho_setLayout h)),
   {| ho_programs := ho_programs h; ho_pipelines := map (fun _ => 0) (ho_pipelines h); ho_sets := map (fun _ => 0) (ho_sets h);
      ho_pool := 0; ho_setLayout := 0; ho_layout := 0; ho_bindings := [] |}).

(* PipelineHolder.cpp:128-138: getPipeline.  Out of range is undefined: 0 here. *)
Definition slot_of (h : pholder) (index : nat) : nat := if Nat.eqb (ho_programs h) 1 then 0%nat else index.
Definition ho_pipeline (h : pholder) (index : nat) : N := nth (slot_of h index) (ho_pipelines h) 0.
Definition with_pipelines (h : pholder) (l : list N) : pholder :=
  {| ho_programs := ho_programs h; ho_pipelines := l; ho_sets := ho_sets h;
     ho_pool := ho_pool h; ho_setLayout := ho_setLayout h; ho_layout := ho_layout h; ho_bindings := ho_bindings h |}.
Definition with_sets (h : pholder) (l : list N) : pholder :=
  {| ho_programs := ho_programs h; ho_pipelines := ho_pipelines h; ho_sets := l;
     ho_pool := ho_pool h; ho_setLayout := ho_setLayout h; ho_layout := ho_layout h; ho_bindings := ho_bindings h |}.

(* PipelineHolder.cpp:140-190: createPipeline writes the handle in the slot, whatever it holds; [info]: the program and the
   render pass of the description, whose layout is the one of the holder *)
Definition ho_create (info : N * N) (index : nat) (d : driver) (h : pholder) : driver * pholder :=
  let '(d, n) := fresh d (fun n => [PCreated KPipeline n; PPipeline n (fst info) (snd info) (ho_layout h)]) in
  (d, with_pipelines h (set_nth (slot_of h index) n (ho_pipelines h))).
(* PipelineHolder.cpp:203-224: resetPipeline, for the pipeline *)
Definition ho_reset (index : nat) (d : driver) (h : pholder) : driver * pholder :=
  let p := ho_pipeline h index in
  if N.eqb p 0 then (d, h) else (push d p, with_pipelines h (set_nth (slot_of h index) 0 (ho_pipelines h))).
(* PipelineHolder.cpp:232-296: createDescriptorSet.  Simplification: the writes kept in the holder are
   those of the set, since they are cleared with it. *)
Definition ho_set (images buffers : list attach) (index : nat) (d : driver) (h : pholder) : driver * pholder :=
  if N.eqb (nth index (ho_sets h) 0) 0 then
    let '(d, s) := fresh d (fun n => [PAllocated (ho_pool h) (ho_setLayout h) n; PUpdated n (set_writes images buffers index)]) in
    (d, with_sets h (set_nth index s (ho_sets h)))
  else (d, h).

(* PipelineHolder.cpp:192-201: what recordInto binds: the pipeline, and the descriptor set with the pipeline layout *)
Definition ho_recordInto (index : nat) (h : pholder) : N * N * N := (ho_pipeline h index, ho_layout h, nth index (ho_sets h) 0).

(* A pass with a pipeline.  [pp_initialised]: RunnablePass::m_passes[].initialised; [pp_prepared]: the
   vertex buffer of a quad exists; [pp_renderPass]: m_renderPass of the quad and mesh holders; [pp_code] and [pp_creator]:
   the programs and the program creator of the pipeline holder.  A program is an opaque number. *)
Inductive pass_kind := Compute | Quad | Mesh.
Record ppass := {
  pp_graph : N; pp_kind : pass_kind; pp_images : list attach; pp_buffers : list attach;
  pp_holder : pholder; pp_initialised : list bool; pp_prepared : bool; pp_renderPass : N;
  pp_code : list N; pp_creator : option (nat -> N) }.
Definition with_holder (p : ppass) (h : pholder) : ppass :=
  {| pp_graph := pp_graph p; pp_kind := pp_kind p; pp_images := pp_images p; pp_buffers := pp_buffers p; pp_holder := h;
     pp_initialised := pp_initialised p; pp_prepared := pp_prepared p; pp_renderPass := pp_renderPass p; pp_code := pp_code p; pp_creator := pp_creator p |}.
Definition with_renderPass (p : ppass) (rp : N) : ppass :=
  {| pp_graph := pp_graph p; pp_kind := pp_kind p; pp_images := pp_images p; pp_buffers := pp_buffers p; pp_holder := pp_holder p;
     pp_initialised := pp_initialised p; pp_prepared := true; pp_renderPass := rp; pp_code := pp_code p; pp_creator := pp_creator p |}.
Definition with_initialised (p : ppass) (index : nat) : ppass :=
  {| pp_graph := pp_graph p; pp_kind := pp_kind p; pp_images := pp_images p; pp_buffers := pp_buffers p; pp_holder := pp_holder p;
     pp_initialised := set_nth index true (pp_initialised p); pp_prepared := pp_prepared p; pp_renderPass := pp_renderPass p; pp_code := pp_code p; pp_creator := pp_creator p |}.
Definition on_holder (f : driver -> pholder -> driver * pholder) (x : driver * ppass) : driver * ppass :=
  let '(d, p) := x in let '(d, h) := f d (pp_holder p) in (d, with_holder p h).

(* PipelineHolder.cpp:226-230: resetPipeline, for the program when one is given *)
Definition with_code (p : ppass) (index : nat) (program : option N) : ppass :=
  match program with
  | None => p
  | Some c => {| pp_graph := pp_graph p; pp_kind := pp_kind p; pp_images := pp_images p; pp_buffers := pp_buffers p; pp_holder := pp_holder p;
                 pp_initialised := pp_initialised p; pp_prepared := pp_prepared p; pp_renderPass := pp_renderPass p;
                 pp_code := set_nth (slot_of (pp_holder p) index) c (pp_code p); pp_creator := pp_creator p |}
  end.
(* PipelineHolder.cpp:112-127: getProgram.  Simplification: the program of the creator is not stored, since it is asked again
   before each use; its index is below its maximum count (assertion). *)
Definition getProgram (p : ppass) (index : nat) : N :=
  match pp_creator p with Some f => f index | None => nth (slot_of (pp_holder p) index) (pp_code p) 0 end.
(* ComputePass.cpp:106-117, RenderQuadHolder.cpp:172-194, RenderMeshHolder.cpp:189-211: the description of the pipeline *)
Definition pipeline_info (p : ppass) (index : nat) : N * N :=
  (getProgram p index, match pp_kind p with Compute => 0 | _ => pp_renderPass p end).

(* RenderQuadHolder.cpp:165-195, RenderMeshHolder.cpp:182-213: doCreatePipeline creates only in an empty slot *)
Definition guarded_create (info : N * N) (index : nat) (d : driver) (h : pholder) : driver * pholder :=
  if N.eqb (ho_pipeline h index) 0 then ho_create info index d h else (d, h).
Definition doCreatePipeline (index : nat) (x : driver * ppass) : driver * ppass := on_holder (guarded_create (pipeline_info (snd x) index) index) x.
(* ComputePass.cpp:106-118: without looking at the slot *)
Definition compute_create (index : nat) (x : driver * ppass) : driver * ppass := on_holder (ho_create (pipeline_info (snd x) index) index) x.

(* RenderQuadHolder.cpp:86-94, RenderMeshHolder.cpp:91-99: resetRenderPass *)
Definition resetRenderPass (rp : N) (index : nat) (x : driver * ppass) : driver * ppass :=
  let '(d, p) := on_holder (ho_reset index) x in doCreatePipeline index (d, with_renderPass p rp).

(* RenderQuadHolder.cpp:66-84: initialise *)
Definition quad_initialise (rp : N) (index : nat) (x : driver * ppass) : driver * ppass :=
  let '(d, p) := x in
  let x := if negb (pp_prepared p)
           then let '(d, p) := on_holder (ho_initialise (pp_images p) (pp_buffers p)) (d, p) in (d, with_renderPass p rp)
           else if negb (N.eqb (pp_renderPass p) rp) then resetRenderPass rp index (d, p) else (d, p) in
  doCreatePipeline index x.
(* RenderMeshHolder.cpp:66-89: cleanup, by RenderMesh.cpp:54-60, then initialise *)
Definition mesh_initialise (rp : N) (index : nat) (x : driver * ppass) : driver * ppass :=
  let '(d, p) := on_holder ho_cleanup x in
  let '(d, p) := on_holder (ho_initialise (pp_images p) (pp_buffers p)) (d, p) in
  let x := if N.eqb (pp_renderPass p) 0 then (d, with_renderPass p rp)
           else if negb (N.eqb (pp_renderPass p) rp) then resetRenderPass rp index (d, p) else (d, p) in
  doCreatePipeline index x.

(* ComputePass.cpp:66-71, 84-105 with RunnablePass.cpp:308-315, 372-380; RenderQuad.cpp:50-64 and
   RenderQuadHolder.cpp:107-112; RenderMesh.cpp:48-66 and RenderMeshHolder.cpp:112-117: recording of an enabled pass.
   [recreated] is the render pass made by RenderPassHolder::initialise when it made one.
   The last component is the pipeline bound. *)
Definition pass_record (index : nat) (recreated : option N) (d : driver) (p : ppass) : driver * ppass * N :=
  let x := match pp_kind p with
           | Compute =>
               if nth index (pp_initialised p) false then (d, p)
               else let '(d, p) := compute_create index (on_holder (ho_initialise (pp_images p) (pp_buffers p)) (d, p)) in
                    (d, with_initialised p index)
           | Quad => doCreatePipeline index (match recreated with Some rp => quad_initialise rp index (d, p) | None => (d, p) end)
           | Mesh => doCreatePipeline index (match recreated with Some rp => mesh_initialise rp index (d, p) | None => (d, p) end)
           end in
  let '(d, p) := on_holder (ho_set (pp_images p) (pp_buffers p) index) x in
  (d, p, fst (fst (ho_recordInto index (pp_holder p)))).

(* ComputePass.cpp:52-59; RenderQuadHolder.cpp:96-102, RenderMeshHolder.cpp:101-109: resetPipeline, without
   reRecordCurrent, which records the pass again (RunnablePass.cpp:325-361) *)
Definition pass_reset (index : nat) (program : option N) (d : driver) (p : ppass) : driver * ppass :=
  let '(d, p) := on_holder (ho_reset index) (d, p) in
  let x := (d, with_code p index program) in
  match pp_kind p with
  | Compute => compute_create index x
  | _ => if N.eqb (pp_renderPass p) 0 then x else doCreatePipeline index x
  end.

(* GraphContext.hpp:357-366: DeletionQueue::clear *)
Definition clear_queue (d : driver) : driver :=
  {| dr_next := dr_next d; dr_log := dr_log d ++ map (PDestroyed KPipeline) (dr_queue d); dr_queue := [] |}.

(* The passes of the graphs of one context. *)
Record pworld := { pw_driver : driver; pw_passes : nmap ppass }.
Definition new_pworld : pworld := {| pw_driver := {| dr_next := 1; dr_log := []; dr_queue := [] |}; pw_passes := [] |}.

Inductive pop :=
| ONew (id graph : N) (k : pass_kind) (programs maxPassCount : nat) (images buffers : list attach) (creator : option (nat -> N))
| ORecord (id : N) (index : nat) (recreated : option N)     (* out of a run: reRecordCurrent *)
| OReset (id : N) (index : nat) (program : option N)
| ODestroy (id : N)
| ORun (graph : N) (passes : list (N * nat * option N))     (* pass, index, render pass made *)
| OWait (graph : N).                                        (* the caller waits for the last submission of the graph *)

(* The programs of the configuration are numbered by their position. *)
Definition new_ppass (graph : N) (k : pass_kind) (programs maxPassCount : nat) (images buffers : list attach) (creator : option (nat -> N)) : ppass :=
  {| pp_graph := graph; pp_kind := k; pp_images := images; pp_buffers := buffers; pp_holder := new_holder programs maxPassCount;
     pp_initialised := repeat false maxPassCount; pp_prepared := false; pp_renderPass := 0;
     pp_code := map N.of_nat (seq 0 programs); pp_creator := creator |}.

Definition do_record (w : pworld) (id : N) (index : nat) (recreated : option N) : pworld * list N :=
  match mfind id (pw_passes w) with
  | None => (w, [])
  | Some p => let '(d, p, bound) := pass_record index recreated (pw_driver w) p in
              ({| pw_driver := d; pw_passes := mput id p (pw_passes w) |}, [bound])
  end.
Fixpoint do_records (w : pworld) (l : list (N * nat * option N)) : pworld * list N :=
  match l with
  | [] => (w, [])
  | (id, index, rp) :: r => let '(w, b) := do_record w id index rp in let '(w, b') := do_records w r in (w, b ++ b')
  end.
Definition on_driver (f : driver -> driver) (w : pworld) : pworld := {| pw_driver := f (pw_driver w); pw_passes := pw_passes w |}.

(* RunnableGraph.cpp:287-415: run: record, which waits for the fence of the graph first, then the deletion queue is
   cleared, then the command buffer is submitted *)
Definition do_run (w : pworld) (graph : N) (passes : list (N * nat * option N)) : pworld :=
  let w := on_driver (fun d => log d [PWaited graph]) w in
  let '(w, bound) := do_records w passes in
  on_driver (fun d => log (clear_queue d) [PSubmitted graph bound]) w.

Definition pstep (w : pworld) (o : pop) : pworld :=
  match o with
  | ONew id g k n m images buffers creator =>
      match mfind id (pw_passes w) with
      | Some _ => w
      | None => {| pw_driver := pw_driver w; pw_passes := mput id (new_ppass g k n m images buffers creator) (pw_passes w) |}
      end
  | ORecord id index rp => fst (do_record w id index rp)
  | OReset id index program =>
      match mfind id (pw_passes w) with
      | None => w
      | Some p => let '(d, p) := pass_reset index program (pw_driver w) p in {| pw_driver := d; pw_passes := mput id p (pw_passes w) |}
      end
  | ODestroy id =>      (* PipelineHolder.cpp:44-47: the destructor cleans up *)
      match mfind id (pw_passes w) with
      | None => w
      | Some p => {| pw_driver := fst (ho_cleanup (pw_driver w) (pp_holder p)); pw_passes := merase id (pw_passes w) |}
      end
  | ORun g passes => do_run w g passes
  | OWait g => on_driver (fun d => log d [PWaited g]) w
  end.
Definition prun (w : pworld) (ops : list pop) : pworld := fold_left pstep ops w.
