(* Model of views and attachments.
   Sources: include/RenderGraph/ImageViewData.hpp, include/RenderGraph/Attachment.hpp,
   source/RenderGraph/Attachment.cpp, source/RenderGraph/FramePass.cpp:277-974,
   include/RenderGraph/FramePass.hpp:441-645, source/RenderGraph/FrameGraph.cpp:648-682. *)
From Verif Require Export Model_Layout.
Local Open Scope N_scope.

(* VkFormat: the depth and stencil formats. *)
Definition F_D16 : N := 124.
Definition F_X8_D24 : N := 125.
Definition F_D32 : N := 126.
Definition F_S8 : N := 127.
Definition F_D16_S8 : N := 128.
Definition F_D24_S8 : N := 129.
Definition F_D32_S8 : N := 130.

(* VkAttachmentLoadOp, VkAttachmentStoreOp *)
Definition LO_LOAD : N := 0.
Definition LO_CLEAR : N := 1.
Definition LO_DONT_CARE : N := 2.
Definition SO_STORE : N := 0.
Definition SO_DONT_CARE : N := 1.

(* FrameGraph.cpp:648-656 *)
Definition isDepthFormat (f : N) : bool :=
  existsb (N.eqb f) [F_D16; F_X8_D24; F_D32; F_D16_S8; F_D24_S8; F_D32_S8].
(* FrameGraph.cpp:658-664 *)
Definition isStencilFormat (f : N) : bool := existsb (N.eqb f) [F_S8; F_D16_S8; F_D24_S8; F_D32_S8].
(* FrameGraph.cpp:666-669 *)
Definition isColourFormat (f : N) : bool := andb (negb (isDepthFormat f)) (negb (isStencilFormat f)).
(* FrameGraph.cpp:671-674 *)
Definition isDepthStencilFormat (f : N) : bool := andb (isDepthFormat f) (isStencilFormat f).
(* FrameGraph.cpp:551-560 *)
Definition getAspectMask (f : N) : N :=
  if isDepthStencilFormat f then N.lor ASPECT_DEPTH ASPECT_STENCIL
  else if isDepthFormat f then ASPECT_DEPTH
  else if isStencilFormat f then ASPECT_STENCIL
  else ASPECT_COLOR.

(* ImageViewId with its ImageViewData (ImageViewData.hpp:15-39).
   Simplifications: no name, no component swizzle. *)
Inductive view := mkView {
  v_id : N; v_image : image; v_flags : N; v_type : N; v_format : N; v_range : srange; v_source : list view }.
Definition dummy_image : image := {| i_id := 0; i_width := 0; i_height := 0; i_depth := 0; i_levels := 0; i_layers := 0; i_format := 0 |}.
Definition dummy_range : srange := {| r_aspect := 0; r_mip := 0; r_levels := 0; r_layer := 0; r_layers := 0 |}.
Definition dummy_view : view := mkView 0 dummy_image 0 0 0 dummy_range [].

(* FrameGraph.cpp:676-682: resolveView; indexing out of the sources is undefined in C++ (dummy here). *)
Definition resolveView (v : view) (index : nat) : view :=
  match v_source v with [] => v | s => nth index s dummy_view end.

(* Attachment.hpp: flags of ImageAttachment (62-77), BufferAttachment (196-208), Attachment (324-340) *)
Definition IF_Sampled : N := 1.
Definition IF_Storage : N := 2.
Definition IF_Transfer : N := 4.
Definition IF_Depth : N := 8.
Definition IF_Stencil : N := 16.
Definition IF_StencilClearing : N := 32.
Definition IF_StencilInput : N := 64.
Definition IF_StencilOutput : N := 128.
Definition IF_Transition : N := 256.
Definition BF_Uniform : N := 1.
Definition BF_Storage : N := 2.
Definition BF_Transfer : N := 4.
Definition BF_View : N := 8.
Definition BF_Transition : N := 16.
Definition AF_Input : N := 1.
Definition AF_Output : N := 2.
Definition AF_Image : N := 4.
Definition AF_Buffer : N := 8.
Definition AF_NoTransition : N := 16.
Definition AF_Clearable : N := 32.
Definition AF_InOut : N := N.lor AF_Input AF_Output.

(* Attachment with its ImageAttachment and BufferAttachment (Attachment.hpp:56-330, 600-650).
   Simplifications: no name; sampler description, clear value and blend state are one opaque number. *)
Record attach := {
  at_pass : option N; at_binding : N; at_flags : N;
  ia_flags : N; ia_views : list view; ia_load : N; ia_store : N; ia_sload : N; ia_sstore : N; ia_misc : N; ia_wanted : N;
  ba_flags : N; ba_buffers : list N; ba_view : N; ba_offset : N; ba_size : N; ba_wanted : pstate }.

(* Attachment.hpp: hasFlag *)
Definition hasFlag (flags f : N) : bool := N.eqb (N.land flags f) f.

(* Attachment.hpp:365-398 *)
Definition isNoTransition (a : attach) : bool := hasFlag (at_flags a) AF_NoTransition.
Definition isInput (a : attach) : bool := hasFlag (at_flags a) AF_Input.
Definition isOutput (a : attach) : bool := hasFlag (at_flags a) AF_Output.
Definition isImage (a : attach) : bool := hasFlag (at_flags a) AF_Image.
Definition isBuffer (a : attach) : bool := hasFlag (at_flags a) AF_Buffer.
Definition isClearable (a : attach) : bool := hasFlag (at_flags a) AF_Clearable.
(* Attachment.hpp:400-470 *)
Definition isUniformBuffer (a : attach) : bool := andb (isBuffer a) (hasFlag (ba_flags a) BF_Uniform).
Definition isStorageBuffer (a : attach) : bool := andb (isBuffer a) (hasFlag (ba_flags a) BF_Storage).
Definition isTransferBuffer (a : attach) : bool := andb (isBuffer a) (hasFlag (ba_flags a) BF_Transfer).
Definition isTransitionBuffer (a : attach) : bool := andb (isBuffer a) (hasFlag (ba_flags a) BF_Transition).
Definition isBufferView (a : attach) : bool := andb (isBuffer a) (hasFlag (ba_flags a) BF_View).
Definition isClearableBuffer (a : attach) : bool := andb (isBuffer a) (andb (isOutput a) (isClearable a)).
Definition isClearableImage (a : attach) : bool := andb (isImage a) (andb (isOutput a) (isClearable a)).
(* Attachment.hpp:105-165: predicates of ImageAttachment, on its flags *)
Definition i_isSampled (f : N) : bool := hasFlag f IF_Sampled.
Definition i_isStorage (f : N) : bool := hasFlag f IF_Storage.
Definition i_isTransfer (f : N) : bool := hasFlag f IF_Transfer.
Definition i_isTransition (f : N) : bool := hasFlag f IF_Transition.
Definition i_isDepth (f : N) : bool := andb (hasFlag f IF_Depth) (negb (i_isTransition f)).
Definition i_isStencil (f : N) : bool := andb (hasFlag f IF_Stencil) (negb (i_isTransition f)).
Definition i_isColour (f : N) : bool :=
  negb (orb (orb (orb (i_isSampled f) (i_isTransition f)) (orb (i_isStorage f) (i_isTransfer f))) (orb (i_isDepth f) (i_isStencil f))).
Definition i_isStencilInput (f : N) : bool := hasFlag f IF_StencilInput.
Definition i_isStencilOutput (f : N) : bool := hasFlag f IF_StencilOutput.
(* Attachment.hpp:472-510 *)
Definition isSampledView (a : attach) : bool := andb (isImage a) (i_isSampled (ia_flags a)).
Definition isStorageView (a : attach) : bool := andb (isImage a) (i_isStorage (ia_flags a)).
Definition isTransferView (a : attach) : bool := andb (isImage a) (i_isTransfer (ia_flags a)).
Definition isTransitionView (a : attach) : bool := andb (isImage a) (i_isTransition (ia_flags a)).
Definition isDepthAttach (a : attach) : bool := andb (isImage a) (i_isDepth (ia_flags a)).
Definition isStencilAttach (a : attach) : bool := andb (isImage a) (i_isStencil (ia_flags a)).
Definition isColourAttach (a : attach) : bool :=
  negb (orb (orb (orb (isSampledView a) (isTransitionView a)) (orb (isStorageView a) (isTransferView a))) (orb (isDepthAttach a) (isStencilAttach a))).

(* Attachment.cpp:219-224 and 546-558: view( index ); FrameGraphPrerequisites.hpp:220-225: buffer( index ).
   Indexing out of range is undefined in C++ (dummy here). *)
Definition attach_view (a : attach) (index : nat) : view :=
  if isImage a then match ia_views a with [v] => v | l => nth index l dummy_view end else dummy_view.
Definition attach_buffer (a : attach) (index : nat) : N :=
  if isBuffer a then match ba_buffers a with [b] => b | l => nth index l 0 end else 0.

(* Attachment.cpp:236-322: ImageAttachment::getImageLayout *)
Definition i_getImageLayout (f wanted : N) (separate isIn isOut : bool) : N :=
  if i_isSampled f then L_SHADER_READ_ONLY
  else if i_isTransition f then wanted
  else if i_isStorage f then L_GENERAL
  else if i_isTransfer f then (if isOut then L_TRANSFER_DST else if isIn then L_TRANSFER_SRC else L_SHADER_READ_ONLY)
  else if i_isColour f then L_COLOR_ATTACHMENT
  else if separate then
    (if andb (i_isDepth f) (i_isStencil f) then
       (if isOut then L_DEPTH_STENCIL_ATTACHMENT else if isIn then L_DEPTH_STENCIL_READ_ONLY else L_SHADER_READ_ONLY)
     else if i_isStencil f then
       (if andb isOut (i_isStencilOutput f) then L_STENCIL_ATTACHMENT
        else if andb isIn (i_isStencilInput f) then L_STENCIL_READ_ONLY else L_SHADER_READ_ONLY)
     else if i_isDepth f then
       (if isOut then L_DEPTH_ATTACHMENT else if isIn then L_DEPTH_READ_ONLY else L_SHADER_READ_ONLY)
     else L_SHADER_READ_ONLY)
  else if andb isOut (orb (i_isDepth f) (i_isStencilOutput f)) then L_DEPTH_STENCIL_ATTACHMENT
  else if andb isIn (orb (i_isDepth f) (i_isStencilInput f)) then L_DEPTH_STENCIL_READ_ONLY
  else L_SHADER_READ_ONLY.

Definition rw (isIn isOut : bool) (r w : N) : N :=
  N.lor (if isIn then r else 0) (if isOut then w else 0).

(* Attachment.cpp:324-387: ImageAttachment::getAccessMask *)
Definition i_getAccessMask (f wanted : N) (isIn isOut : bool) : N :=
  if i_isSampled f then A_SHADER_READ
  else if i_isTransition f then getAccessMask wanted
  else if i_isStorage f then rw isIn isOut A_SHADER_READ A_SHADER_WRITE
  else if i_isTransfer f then rw isIn isOut A_TRANSFER_READ A_TRANSFER_WRITE
  else if orb (i_isDepth f) (i_isStencil f) then rw isIn isOut A_DS_READ A_DS_WRITE
  else rw isIn isOut A_COLOR_READ A_COLOR_WRITE.

(* Attachment.cpp:389-426: ImageAttachment::getPipelineStageFlags *)
Definition i_getPipelineStageFlags (f wanted : N) (isCompute : bool) : N :=
  if i_isSampled f then S_FRAGMENT
  else if i_isTransition f then getStageMask wanted
  else if i_isStorage f then (if isCompute then S_COMPUTE else S_FRAGMENT)
  else if i_isTransfer f then S_TRANSFER
  else if orb (i_isDepth f) (i_isStencil f) then S_LATE_TESTS
  else S_COLOR_OUTPUT.

(* Attachment.cpp:111-150: BufferAttachment::getAccessMask *)
Definition b_getAccessMask (f : N) (wanted : pstate) (isIn isOut : bool) : N :=
  if hasFlag f BF_Transition then ps_access wanted
  else if hasFlag f BF_Storage then rw isIn isOut A_SHADER_READ A_SHADER_WRITE
  else if hasFlag f BF_Transfer then rw isIn isOut A_TRANSFER_READ A_TRANSFER_WRITE
  else A_SHADER_READ.

(* Attachment.cpp:152-174: BufferAttachment::getPipelineStageFlags *)
Definition b_getPipelineStageFlags (f : N) (wanted : pstate) (isCompute : bool) : N :=
  if hasFlag f BF_Transition then ps_stage wanted
  else if hasFlag f BF_Transfer then S_TRANSFER
  else if isCompute then S_COMPUTE
  else S_FRAGMENT.

(* Attachment.cpp:560-608: Attachment::getImageLayout, getAccessMask, getPipelineStageFlags *)
Definition a_getImageLayout (a : attach) (separate : bool) : N :=
  i_getImageLayout (ia_flags a) (ia_wanted a) separate (isInput a) (isOutput a).
Definition a_getAccessMask (a : attach) : N :=
  if isImage a then i_getAccessMask (ia_flags a) (ia_wanted a) (isInput a) (isOutput a)
  else b_getAccessMask (ba_flags a) (ba_wanted a) (isInput a) (isOutput a).
Definition a_getPipelineStageFlags (a : attach) (isCompute : bool) : N :=
  if isImage a then i_getPipelineStageFlags (ia_flags a) (ia_wanted a) isCompute
  else b_getPipelineStageFlags (ba_flags a) (ba_wanted a) isCompute.

(* VkDescriptorType *)
Definition DT_COMBINED : N := 1.
Definition DT_STORAGE_IMAGE : N := 3.
Definition DT_UNIFORM_TEXEL : N := 4.
Definition DT_STORAGE_TEXEL : N := 5.
Definition DT_UNIFORM_BUFFER : N := 6.
Definition DT_STORAGE_BUFFER : N := 7.
(* Attachment.cpp:91-109, 226-234, 570-578: getDescriptorType *)
Definition a_getDescriptorType (a : attach) : N :=
  if isImage a then (if i_isStorage (ia_flags a) then DT_STORAGE_IMAGE else DT_COMBINED)
  else let f := ba_flags a in
       if andb (hasFlag f BF_Uniform) (hasFlag f BF_View) then DT_UNIFORM_TEXEL
       else if andb (hasFlag f BF_Storage) (hasFlag f BF_View) then DT_STORAGE_TEXEL
       else if hasFlag f BF_Uniform then DT_UNIFORM_BUFFER
       else DT_STORAGE_BUFFER.

Definition no_pstate : pstate := {| ps_access := 0; ps_stage := 0 |}.

(* Attachment.cpp:453-495: constructor of an image attachment *)
Definition mk_image_attach (flags pass binding iflags : N) (views : list view) (lo so slo sso misc wanted : N) : attach :=
  {| at_pass := Some pass; at_binding := binding;
     at_flags := N.lor (N.lor (N.lor (N.lor (N.lor flags AF_Image)
        (if N.eqb lo LO_LOAD then AF_Input else 0)) (if N.eqb so SO_STORE then AF_Output else 0))
        (if N.eqb slo LO_LOAD then AF_Input else 0)) (if N.eqb sso SO_STORE then AF_Output else 0);
     ia_flags := iflags; ia_views := views; ia_load := lo; ia_store := so; ia_sload := slo; ia_sstore := sso;
     ia_misc := misc; ia_wanted := wanted;
     ba_flags := 0; ba_buffers := []; ba_view := 0; ba_offset := 0; ba_size := 0; ba_wanted := no_pstate |}.

(* Attachment.cpp:497-532: constructors of a buffer attachment *)
Definition mk_buffer_attach (flags pass binding bflags : N) (buffers : list N) (bview offset size : N) (wanted : pstate) : attach :=
  {| at_pass := Some pass; at_binding := binding; at_flags := N.lor flags AF_Buffer;
     ia_flags := 0; ia_views := []; ia_load := 0; ia_store := 0; ia_sload := 0; ia_sstore := 0; ia_misc := 0; ia_wanted := 0;
     ba_flags := bflags; ba_buffers := buffers; ba_view := bview; ba_offset := offset; ba_size := size; ba_wanted := wanted |}.

(* Attachment.cpp:441-451: Attachment::createDefault( view ) and ( buffer ): no pass, not input nor output *)
Definition default_image_attach (v : view) : attach :=
  {| at_pass := None; at_binding := 0; at_flags := AF_Image;
     ia_flags := 0; ia_views := [v]; ia_load := 0; ia_store := 0; ia_sload := 0; ia_sstore := 0; ia_misc := 0; ia_wanted := 0;
     ba_flags := 0; ba_buffers := []; ba_view := 0; ba_offset := 0; ba_size := 0; ba_wanted := no_pstate |}.
Definition default_buffer_attach (b : list N) : attach :=
  {| at_pass := None; at_binding := 0; at_flags := AF_Buffer;
     ia_flags := 0; ia_views := []; ia_load := 0; ia_store := 0; ia_sload := 0; ia_sstore := 0; ia_misc := 0; ia_wanted := 0;
     ba_flags := 0; ba_buffers := b; ba_view := 0; ba_offset := 0; ba_size := 0; ba_wanted := no_pstate |}.

Definition InvalidBindingId : N := 4294967295.

(* The public declaration methods of FramePass taking image views. *)
Inductive image_method :=
| addSampledView | addImplicitColourView | addImplicitDepthView | addImplicitDepthStencilView
| addInputStorageView | addOutputStorageView | addClearableOutputStorageView | addInOutStorageView
| addTransferInputView | addTransferOutputView | addTransferInOutView
| addInputColourView | addInOutColourView | addOutputColourView
| addInputDepthView | addInOutDepthView | addOutputDepthView
| addInputDepthStencilView | addInOutDepthStencilView | addOutputDepthStencilView
| addInputStencilView | addInOutStencilView | addOutputStencilView.

(* FramePass.cpp:640-860 and FramePass.hpp:441-645 with FramePass.cpp:862-974.
   [wanted] is used by the implicit methods only, [binding] by the methods taking one, [flag] (an
   Attachment::Flag) by addTransferInOutView only; [misc] stands for sampler, clear value and blend state. *)
Definition declare_image (m : image_method) (pass : N) (views : list view) (binding wanted flag misc : N) : attach :=
  let none fl bind ifl w := mk_image_attach fl pass bind ifl views LO_DONT_CARE SO_DONT_CARE LO_DONT_CARE SO_DONT_CARE misc w in
  let target fl ifl lo so slo sso w := mk_image_attach fl pass 0 ifl views lo so slo sso misc w in
  let DSA := L_DEPTH_STENCIL_ATTACHMENT in
  match m with
  | addSampledView => none AF_Input binding IF_Sampled L_SHADER_READ_ONLY
  | addImplicitColourView => none AF_Input InvalidBindingId IF_Transition wanted
  | addImplicitDepthView => none AF_Input InvalidBindingId (N.lor IF_Transition IF_Depth) wanted
  | addImplicitDepthStencilView => none AF_Input InvalidBindingId (N.lor IF_Transition (N.lor IF_Depth IF_Stencil)) wanted
  | addInputStorageView => none AF_Input binding IF_Storage L_GENERAL
  | addOutputStorageView => none AF_Output binding IF_Storage L_GENERAL
  | addClearableOutputStorageView => none (N.lor AF_Output AF_Clearable) binding IF_Storage L_GENERAL
  | addInOutStorageView => none AF_InOut binding IF_Storage L_GENERAL
  | addTransferInputView => none AF_Input InvalidBindingId IF_Transfer L_TRANSFER_SRC
  | addTransferOutputView => none AF_Output InvalidBindingId IF_Transfer L_TRANSFER_DST
  | addTransferInOutView => none (N.lor AF_InOut flag) InvalidBindingId IF_Transfer L_TRANSFER_SRC
  | addInputColourView => target AF_Input 0 LO_LOAD SO_DONT_CARE LO_DONT_CARE SO_DONT_CARE L_COLOR_ATTACHMENT
  | addInOutColourView => target AF_InOut 0 LO_LOAD SO_STORE LO_DONT_CARE SO_DONT_CARE L_COLOR_ATTACHMENT
  | addOutputColourView => target AF_Output 0 LO_CLEAR SO_STORE LO_DONT_CARE SO_DONT_CARE L_COLOR_ATTACHMENT
  | addInputDepthView => target AF_Input IF_Depth LO_LOAD SO_DONT_CARE LO_DONT_CARE SO_DONT_CARE DSA
  | addInOutDepthView => target AF_InOut IF_Depth LO_LOAD SO_STORE LO_DONT_CARE SO_DONT_CARE DSA
  | addOutputDepthView => target AF_Output IF_Depth LO_CLEAR SO_STORE LO_DONT_CARE SO_DONT_CARE DSA
  | addInputDepthStencilView =>
      target AF_Input (N.lor IF_StencilInput (N.lor IF_Depth IF_Stencil)) LO_LOAD SO_DONT_CARE LO_LOAD SO_DONT_CARE DSA
  | addInOutDepthStencilView =>
      target AF_InOut (N.lor (N.lor IF_StencilInput IF_StencilOutput) (N.lor IF_Depth IF_Stencil)) LO_LOAD SO_STORE LO_LOAD SO_STORE DSA
  | addOutputDepthStencilView =>
      target AF_Output (N.lor IF_StencilOutput (N.lor IF_Depth IF_Stencil)) LO_CLEAR SO_STORE LO_CLEAR SO_STORE DSA
  | addInputStencilView => target AF_Input (N.lor IF_StencilInput IF_Stencil) LO_DONT_CARE SO_DONT_CARE LO_LOAD SO_DONT_CARE DSA
  | addInOutStencilView =>
      target AF_InOut (N.lor (N.lor IF_StencilInput IF_StencilOutput) IF_Stencil) LO_DONT_CARE SO_DONT_CARE LO_LOAD SO_STORE DSA
  | addOutputStencilView => target AF_Output (N.lor IF_StencilOutput IF_Stencil) LO_DONT_CARE SO_DONT_CARE LO_CLEAR SO_STORE DSA
  end.

(* Depth and stencil targets are inserted at the front of the pass images (FramePass.cpp:900, 927, 956),
   everything else at the back. *)
Definition declared_first (m : image_method) : bool :=
  match m with
  | addInputDepthView | addInOutDepthView | addOutputDepthView
  | addInputDepthStencilView | addInOutDepthStencilView | addOutputDepthStencilView
  | addInputStencilView | addInOutStencilView | addOutputStencilView => true
  | _ => false
  end.
Definition declare_into (m : image_method) (a : attach) (images : list attach) : list attach :=
  if declared_first m then a :: images else images ++ [a].

(* The public declaration methods of FramePass taking buffers. *)
Inductive buffer_method :=
| addImplicitBuffer | addUniformBuffer | addInputStorageBuffer | addOutputStorageBuffer
| addClearableOutputStorageBuffer | addInOutStorageBuffer
| addImplicitBufferView | addUniformBufferView | addInputStorageBufferView | addOutputStorageBufferView
| addClearableOutputStorageBufferView | addInOutStorageBufferView
| addTransferInputBuffer | addTransferOutputBuffer | addTransferInOutBuffer.

(* FramePass.cpp:277-542 *)
Definition declare_buffer (m : buffer_method) (pass : N) (buffers : list N) (binding bview offset size : N) (wanted : pstate) (flag : N) : attach :=
  let mk fl bind bfl bv w := mk_buffer_attach fl pass bind bfl buffers bv offset size w in
  match m with
  | addImplicitBuffer => mk AF_Input InvalidBindingId BF_Transition 0 wanted
  | addUniformBuffer => mk AF_Input binding BF_Uniform 0 no_pstate
  | addInputStorageBuffer => mk AF_Input binding BF_Storage 0 no_pstate
  | addOutputStorageBuffer => mk AF_Output binding BF_Storage 0 no_pstate
  | addClearableOutputStorageBuffer => mk (N.lor AF_Output AF_Clearable) binding BF_Storage 0 no_pstate
  | addInOutStorageBuffer => mk AF_InOut binding BF_Storage 0 no_pstate
  | addImplicitBufferView => mk AF_Input InvalidBindingId (N.lor BF_Transition BF_View) bview wanted
  | addUniformBufferView => mk AF_Input binding (N.lor BF_Uniform BF_View) bview no_pstate
  | addInputStorageBufferView => mk AF_Input binding (N.lor BF_Storage BF_View) bview no_pstate
  | addOutputStorageBufferView => mk AF_Output binding (N.lor BF_Storage BF_View) bview no_pstate
  | addClearableOutputStorageBufferView => mk (N.lor AF_Output AF_Clearable) binding (N.lor BF_Storage BF_View) bview no_pstate
  | addInOutStorageBufferView => mk AF_InOut binding (N.lor BF_Storage BF_View) bview no_pstate
  | addTransferInputBuffer => mk AF_Input InvalidBindingId BF_Transfer 0 no_pstate
  | addTransferOutputBuffer => mk AF_Output InvalidBindingId BF_Transfer 0 no_pstate
  | addTransferInOutBuffer => mk (N.lor AF_InOut flag) InvalidBindingId BF_Transfer 0 no_pstate
  end.

(* FramePass.cpp:544-638: mergeViews, up to the final graph.createView( data ), which gives the view
   identifier: [new_id].  VK_IMAGE_CREATE_CUBE_COMPATIBLE_BIT is given as a boolean.
   Differing images are an assertion failure in the code: not represented. *)
Definition merge_dim (merge : bool) (base count vbase vcount : N) : N * N :=
  let b := N.min vbase base in
  if merge then (b, u32 (N.max (u32 (count + base)) (u32 (vcount + vbase)) + 2 ^ 32 - b)) else (b, 1).
Definition merge_step (mips layers : bool) (data : view) (v : view) : view :=
  if N.eqb (i_id (v_image data)) 0
  then mkView 0 (v_image v) (v_flags v) (v_type v) (v_format v) (v_range v) (v_source data ++ [v])
  else
    let dr := v_range data in let vr := v_range v in
    let '(m, mc) := merge_dim mips (r_mip dr) (r_levels dr) (r_mip vr) (r_levels vr) in
    let '(l, lc) := merge_dim layers (r_layer dr) (r_layers dr) (r_layer vr) (r_layers vr) in
    mkView 0 (v_image data) (v_flags data) (v_type data) (v_format data)
      {| r_aspect := r_aspect dr; r_mip := m; r_levels := mc; r_layer := l; r_layers := lc |} (v_source data ++ [v]).
Definition promote_type (cube : bool) (t : N) (r : srange) : N :=
  if N.ltb 1 (r_layers r) then
    if N.eqb t VT_1D then VT_1D_ARRAY
    else if N.eqb t VT_2D then
      (if andb cube (andb (N.eqb (r_layers r mod 6) 0) (N.eqb (r_layer r) 0))
       then (if N.ltb 6 (r_layers r) then VT_CUBE_ARRAY else VT_CUBE)
       else VT_2D_ARRAY)
    else if N.eqb t VT_CUBE then (if N.ltb 6 (r_layers r) then VT_CUBE_ARRAY else t)
    else t
  else t.
Definition mergeViews (new_id : N) (cube : bool) (views : list view) (mips layers : bool) : view :=
  let d := fold_left (merge_step mips layers) views dummy_view in
  mkView new_id (v_image d) (v_flags d) (promote_type cube (v_type d) (v_range d)) (v_format d) (v_range d) (v_source d).
