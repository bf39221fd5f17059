(* Model of the bodies of the transfer, compute, quad and mesh passes.
   Sources: source/RenderGraph/RunnablePasses/ImageBlit.cpp:54-78, ImageCopy.cpp:68-113, BufferCopy.cpp:37-73,
   BufferToImageCopy.cpp:48-72, ImageToBufferCopy.cpp:48-72, ComputePass.cpp:84-105, PipelineHolder.cpp:192-201,
   RenderQuadHolder.cpp:104-126, 135-149, RenderMeshHolder.cpp:111-149. *)
From Verif Require Export Model_Mips.
Local Open Scope N_scope.

Definition point := (N * N * N)%type.   (* VkOffset3D, VkExtent3D; offsets are not negative *)

(* imgBlit::convert, imgCopy::convert, bufToImg::convert, imToBuf::convert: VkImageSubresourceLayers, as a range of one level *)
Definition sub_layers (r : srange) : srange :=
  {| r_aspect := r_aspect r; r_mip := r_mip r; r_levels := 1; r_layer := r_layer r; r_layers := r_layers r |}.

Definition front (l : list attach) (d : attach) : attach := hd d l.
Definition back (l : list attach) (d : attach) : attach := last l d.

(* ImageBlit.cpp:54-78: doRecordInto, on the views of the first and of the last attachment *)
Definition image_blit (srcV dstV : view) (srcOffset srcSize dstOffset dstSize : point) (filter : N) (c : rctx) : rctx * list cmd :=
  (c, [CBlitImage (i_id (v_image srcV)) L_TRANSFER_SRC (i_id (v_image dstV)) L_TRANSFER_DST
         (sub_layers (v_range srcV)) (sub_layers (v_range dstV)) srcOffset srcSize dstOffset dstSize filter]).

(* ImageCopy.cpp:68-113: doRecordInto.  The number of attachments is even (assertion of ImageCopy.cpp:47). *)
Fixpoint image_copies (e : env) (copySize : point) (final : N) (views : list view) (c : rctx) : rctx * list cmd :=
  match views with
  | srcV :: dstV :: rest =>
      (c, [CCopyRegion (i_id (v_image srcV)) L_TRANSFER_SRC (i_id (v_image dstV)) L_TRANSFER_DST
             (sub_layers (v_range srcV)) (sub_layers (v_range dstV)) (0, 0, 0) (0, 0, 0) copySize])
      >>> (fun c => final_barrier e c dstV final)
      >>> image_copies e copySize final rest
  | _ => (c, [])
  end.

(* BufferCopy.cpp:37-73: doRecordInto, on the first and the last buffer attachments *)
Definition buffer_copy (src dst : attach) (index : nat) (copyOffset copyRange : N) (c : rctx) : rctx * list cmd :=
  let s := attach_buffer src index in
  let d := attach_buffer dst index in
  bufferBarrier c s (ba_offset src) (ba_size src) A_SHADER_WRITE S_FRAGMENT {| ps_access := A_TRANSFER_READ; ps_stage := S_TRANSFER |} false
  >>> (fun c => bufferBarrier c d (ba_offset dst) (ba_size dst) 0 S_BOTTOM {| ps_access := A_TRANSFER_WRITE; ps_stage := S_TRANSFER |} false)
  >>> emit [CCopyBuffer s d (u64_add (ba_offset src) copyOffset) (u64_add (ba_offset dst) copyOffset) copyRange]
  >>> (fun c => bufferBarrier c d (ba_offset dst) (ba_size dst) 0 S_BOTTOM {| ps_access := A_SHADER_READ; ps_stage := S_COMPUTE |} false)
  >>> (fun c => bufferBarrier c s (ba_offset src) (ba_size src) 0 S_BOTTOM {| ps_access := A_SHADER_WRITE; ps_stage := S_FRAGMENT |} false).

(* BufferToImageCopy.cpp:48-72 and ImageToBufferCopy.cpp:48-72: doRecordInto *)
Definition buffer_to_image (src : attach) (dstV : view) (index : nat) (copyOffset copySize : point) (c : rctx) : rctx * list cmd :=
  (c, [CBufferToImage (attach_buffer src index) 0 (i_id (v_image dstV)) L_TRANSFER_DST (sub_layers (v_range dstV)) copyOffset copySize]).
Definition image_to_buffer (srcV : view) (dst : attach) (index : nat) (copyOffset copySize : point) (c : rctx) : rctx * list cmd :=
  (c, [CImageToBuffer (i_id (v_image srcV)) L_TRANSFER_SRC (sub_layers (v_range srcV)) (attach_buffer dst index) 0 copyOffset copySize]).

(* ComputePass.hpp:20-260: cp::Config.  A callback is represented by the value it returns. *)
Record compute_config := {
  cc_x : option N; cc_y : option N; cc_z : option N;
  cc_getX : option N; cc_getY : option N; cc_getZ : option N;
  cc_indirect : list N; cc_indirectOffset : N;
  cc_record : rctx -> nat -> rctx * list cmd; cc_end : rctx -> nat -> rctx * list cmd }.

(* FrameGraphPrerequisites.hpp:220-232: Buffer::buffer; out of range is undefined (0 here) *)
Definition buffer_at (l : list N) (index : nat) : N := match l with [b] => b | _ => nth index l 0 end.

(* ComputePass.cpp:97-103: the three counts; None when a callback that is not set is called (the
   callback of X is called for Y and for Z). ComputePass.cpp:35-37: the constants default to 1. *)
Definition or_one (o : option N) : N := match o with Some n => n | None => 1 end.
Definition dispatch_counts (cfg : compute_config) : option (N * N * N) :=
  let x := match cc_getX cfg with Some n => Some n | None => Some (or_one (cc_x cfg)) end in
  let y := match cc_getY cfg with Some _ => cc_getX cfg | None => Some (or_one (cc_y cfg)) end in
  let z := match cc_getZ cfg with Some _ => cc_getX cfg | None => Some (or_one (cc_z cfg)) end in
  match x, y, z with Some x, Some y, Some z => Some (x, y, z) | _, _, _ => None end.

(* PipelineHolder.cpp:192-201: recordInto, once the descriptor set exists *)
Definition bind_cmds (pipeline set : N) : list cmd := [CBindPipeline pipeline; CBindSet set].

(* ComputePass.cpp:84-105: doRecordInto *)
Definition compute_record (cfg : compute_config) (pipeline set : N) (index : nat) (c : rctx) : option (rctx * list cmd) :=
  let start := (c, bind_cmds pipeline set) >>> (fun c => cc_record cfg c index) in
  let ind := buffer_at (cc_indirect cfg) index in
  if negb (N.eqb ind 0)
  then Some (start >>> emit [CDispatchIndirect ind (cc_indirectOffset cfg)] >>> (fun c => cc_end cfg c index))
  else match dispatch_counts cfg with
       | Some (x, y, z) => Some (start >>> emit [CDispatch x y z] >>> (fun c => cc_end cfg c index))
       | None => None
       end.

(* RenderQuadHolder.cpp:104-126: record, after the pipeline was bound.  [vertex] is the vertex buffer, 0 when there is none. *)
Definition quad_draw (vertex : N) (indirect : list N) (offset stride instances : N) (index : nat) : list cmd :=
  (if N.eqb vertex 0 then [] else [CBindVertexBuffer vertex]) ++
  (let ind := buffer_at indirect index in
   if N.eqb ind 0 then [CDraw 3 instances] else [CDrawIndirect ind offset stride]).

(* RenderMeshHolder.cpp:111-149: record, after the pipeline was bound *)
Record mesh_config := {
  mc_vertex : list N; mc_index : list N; mc_indirect : list N; mc_indirectOffset : N; mc_indirectStride : N;
  mc_vertexCount : N; mc_primitiveCount : N }.
Definition mesh_draw (m : mesh_config) (index : nat) : list cmd :=
  (let v := buffer_at (mc_vertex m) index in if N.eqb v 0 then [] else [CBindVertexBuffer v]) ++
  (let ind := buffer_at (mc_indirect m) index in
   let idx := buffer_at (mc_index m) index in
   if negb (N.eqb ind 0)
   then if negb (N.eqb idx 0) then [CBindIndexBuffer idx; CDrawIndexedIndirect ind (mc_indirectOffset m) (mc_indirectStride m)]
        else [CDrawIndirect ind (mc_indirectOffset m) (mc_indirectStride m)]
   else if negb (N.eqb idx 0) then [CBindIndexBuffer idx; CDrawIndexed (mc_primitiveCount m) 1]
   else [CDraw (mc_vertexCount m) 1]).
