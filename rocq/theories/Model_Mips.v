(* Model of the mipmaps generation pass.
   Sources: source/RenderGraph/RunnablePasses/GenerateMipmaps.cpp:14-23, 45-168, RecordContext.cpp:203-217, 289-302. *)
From Verif Require Export Model_Run.
Local Open Scope N_scope.

Definition FILTER_LINEAR : N := 1.

(* GenerateMipmaps.cpp:16-21: getSubresourceDimension, on int32_t.  Extents are below 2^31 and mipLevel
   below 32 for every Vulkan image, so the shift is the one of positive numbers. *)
Definition getSubresourceDimension (extent mipLevel : N) : N := N.max 1 (N.shiftr extent mipLevel).

(* GenerateMipmaps.cpp:71-76: mipSubRange *)
Definition level_range (format layer mip : N) : srange :=
  {| r_aspect := getAspectMask format; r_mip := mip; r_levels := 1; r_layer := layer; r_layers := 1 |}.
(* The three dimensions of a level *)
Definition level_dims (im : image) (mip : N) : N * N * N :=
  (getSubresourceDimension (i_width im) mip, getSubresourceDimension (i_height im) mip, getSubresourceDimension (i_depth im) mip).

Definition src_state : lstate := mk_lstate L_TRANSFER_SRC A_TRANSFER_READ S_TRANSFER.
Definition dst_state : lstate := mk_lstate L_TRANSFER_DST (getAccessMask L_TRANSFER_DST) (getStageMask L_TRANSFER_DST).
Definition src_state_again : lstate := mk_lstate L_TRANSFER_SRC (getAccessMask L_TRANSFER_SRC) (getStageMask L_TRANSFER_SRC).

(* RecordContext.cpp:203-217, 289-302: memoryBarrier on an image and a range: the view type is the image type
   (VkImageType 1D, 2D, 3D have the values of the view types 1D, 2D, 3D) *)
Definition level_barrier (e : env) (im : image) (itype layer mip initial : N) (wanted : lstate) (c : rctx) : rctx * list cmd :=
  memoryBarrier (e_separate e) c im itype (level_range (i_format im) layer mip) initial wanted false.

(* GenerateMipmaps.cpp:104-167: the while loop, from level [mip], with [n] levels left *)
Fixpoint mip_loop (e : env) (im : image) (itype layer : N) (next : lstate) (n : nat) (mip : N) (c : rctx) : rctx * list cmd :=
  match n with
  | O => (c, [])
  | S n =>
      level_barrier e im itype layer mip L_UNDEFINED dst_state c
      >>> emit [CBlitImage (i_id im) L_TRANSFER_SRC (i_id im) L_TRANSFER_DST
                  (level_range (i_format im) layer (mip - 1)) (level_range (i_format im) layer mip)
                  (0, 0, 0) (level_dims im (mip - 1)) (0, 0, 0) (level_dims im mip) FILTER_LINEAR]
      >>> level_barrier e im itype layer (mip - 1) L_TRANSFER_SRC next
      >>> (if N.eqb mip (i_levels im - 1)
           then level_barrier e im itype layer mip L_TRANSFER_DST next
           else level_barrier e im itype layer mip L_TRANSFER_DST src_state_again)
      >>> mip_loop e im itype layer next n (mip + 1)
  end.

(* GenerateMipmaps.cpp:68-168: one layer *)
Definition mip_layer (e : env) (g : rgraph) (v : view) (itype : N) (next : lstate) (layer : N) (c : rctx) : rctx * list cmd :=
  let im := v_image v in
  let '(c, first) := getCurrentLayoutState g c im (v_type v) (level_range (i_format im) layer 0) in
  level_barrier e im itype layer 0 (ls_layout first) src_state c
  >>> mip_loop e im itype layer next (N.to_nat (i_levels im - 1)) 1.

(* GenerateMipmaps.cpp:45-168: doRecordInto, on the view of the first attachment.  [itype] is the type of
   the image.  Simplification: layer indices do not wrap around 2^32. *)
Definition generate_mips (e : env) (g : rgraph) (p : rpass) (v : view) (itype : N) (c : rctx) : rctx * list cmd :=
  let next := getNextLayoutState e g c p v in
  run_all (mip_layer e g v itype next) (map (fun i => r_layer (v_range v) + i) (iota (r_layers (v_range v)))) c.

(* RunnablePass.cpp:392-501 with the callback above: the pass whose body generates the mip levels of its
   first attachment.  The barriers made before the body by recordInto are those of [recordInto]. *)
Definition mips_pass (e : env) (g : rgraph) (itype : N) (p : rpass) : rpass :=
  {| rp_id := rp_id p; rp_images := rp_images p; rp_buffers := rp_buffers p; rp_index := rp_index p; rp_compute := rp_compute p;
     rp_state := getPipelineState S_TRANSFER;
     rp_record := fun c i => match rp_images p with
                             | a :: _ => generate_mips e g p (attach_view a i) itype c
                             | [] => (c, [])
                             end;
     rp_pre := rp_pre p; rp_post := rp_post p; rp_implicit := rp_implicit p |}.
