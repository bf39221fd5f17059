(* Specification vocabulary for attachments. *)
From Verif Require Export Model_Attach Spec_Layout.
Local Open Scope N_scope.

(* What the name of a declaration method promises. *)
Definition img_reads (m : image_method) : bool :=
  match m with
  | addOutputStorageView | addClearableOutputStorageView | addTransferOutputView
  | addOutputColourView | addOutputDepthView | addOutputDepthStencilView | addOutputStencilView => false
  | _ => true
  end.
Definition img_writes (m : image_method) : bool :=
  match m with
  | addOutputStorageView | addClearableOutputStorageView | addInOutStorageView
  | addTransferOutputView | addTransferInOutView
  | addInOutColourView | addOutputColourView | addInOutDepthView | addOutputDepthView
  | addInOutDepthStencilView | addOutputDepthStencilView | addInOutStencilView | addOutputStencilView => true
  | _ => false
  end.

(* How the image is used. *)
Inductive usage := Sampled | Implicit | Storage | Transfer | Colour | DepthStencil.
Definition img_usage (m : image_method) : usage :=
  match m with
  | addSampledView => Sampled
  | addImplicitColourView | addImplicitDepthView | addImplicitDepthStencilView => Implicit
  | addInputStorageView | addOutputStorageView | addClearableOutputStorageView | addInOutStorageView => Storage
  | addTransferInputView | addTransferOutputView | addTransferInOutView => Transfer
  | addInputColourView | addInOutColourView | addOutputColourView => Colour
  | _ => DepthStencil
  end.

(* The Vulkan access bits for reading and for writing. *)
Definition read_bit (u : usage) : N :=
  match u with Sampled | Storage => A_SHADER_READ | Transfer => A_TRANSFER_READ | Colour => A_COLOR_READ | DepthStencil => A_DS_READ | Implicit => 0 end.
Definition write_bit (u : usage) : N :=
  match u with Storage => A_SHADER_WRITE | Transfer => A_TRANSFER_WRITE | Colour => A_COLOR_WRITE | DepthStencil => A_DS_WRITE | Sampled | Implicit => 0 end.

(* The Vulkan pipeline stage where the access takes place. *)
Definition use_stage (u : usage) (compute : bool) : N :=
  match u with
  | Sampled | Storage => if compute then S_COMPUTE else S_FRAGMENT
  | Transfer => S_TRANSFER
  | Colour => S_COLOR_OUTPUT
  | DepthStencil => S_LATE_TESTS
  | Implicit => 0
  end.

(* The aspects of the image a depth/stencil method is about. *)
Inductive aspects := DepthOnly | StencilOnly | DepthAndStencil.
Definition img_aspects (m : image_method) : aspects :=
  match m with
  | addInputDepthStencilView | addInOutDepthStencilView | addOutputDepthStencilView => DepthAndStencil
  | addInputStencilView | addInOutStencilView | addOutputStencilView => StencilOnly
  | _ => DepthOnly
  end.
(* The layout named after the use, where writing wins over reading. *)
Definition named_layout (m : image_method) (separate : bool) : N :=
  match img_usage m with
  | Sampled | Implicit => L_SHADER_READ_ONLY
  | Storage => L_GENERAL
  | Transfer => if img_writes m then L_TRANSFER_DST else L_TRANSFER_SRC
  | Colour => L_COLOR_ATTACHMENT
  | DepthStencil =>
      match img_aspects m with
      | DepthOnly => if separate then (if img_writes m then L_DEPTH_ATTACHMENT else L_DEPTH_READ_ONLY)
                     else if img_writes m then L_DEPTH_STENCIL_ATTACHMENT else L_DEPTH_STENCIL_READ_ONLY
      | StencilOnly => if separate then (if img_writes m then L_STENCIL_ATTACHMENT else L_STENCIL_READ_ONLY)
                     else if img_writes m then L_DEPTH_STENCIL_ATTACHMENT else L_DEPTH_STENCIL_READ_ONLY
      | DepthAndStencil => if img_writes m then L_DEPTH_STENCIL_ATTACHMENT else L_DEPTH_STENCIL_READ_ONLY
      end
  end.
(* What a render pass does with the contents of a target: those read are loaded, the others cleared, those written are stored. *)
Definition named_load (m : image_method) : N := if img_reads m then LO_LOAD else LO_CLEAR.
Definition named_store (m : image_method) : N := if img_writes m then SO_STORE else SO_DONT_CARE.
(* Descriptors of shader resources. *)
Definition named_descriptor (m : image_method) : N := match img_usage m with Storage => DT_STORAGE_IMAGE | _ => DT_COMBINED end.
Definition shader_resource (m : image_method) : bool := match img_usage m with Sampled | Storage => true | _ => false end.

(* Accesses permitted by Vulkan to an image in a layout. *)
Definition allowed_access (layout : N) : N :=
  if N.eqb layout L_GENERAL then N.ones 32
  else if N.eqb layout L_COLOR_ATTACHMENT then N.lor A_COLOR_READ A_COLOR_WRITE
  else if existsb (N.eqb layout) [L_DEPTH_STENCIL_ATTACHMENT; L_DEPTH_ATTACHMENT; L_STENCIL_ATTACHMENT] then N.lor A_DS_READ A_DS_WRITE
  else if existsb (N.eqb layout) [L_DEPTH_RO_STENCIL_ATT; L_DEPTH_ATT_STENCIL_RO] then N.lor A_SHADER_READ (N.lor A_DS_READ A_DS_WRITE)
  else if existsb (N.eqb layout) [L_DEPTH_STENCIL_READ_ONLY; L_DEPTH_READ_ONLY; L_STENCIL_READ_ONLY]
       then N.lor A_SHADER_READ (N.lor A_INPUT_ATTACHMENT_READ A_DS_READ)
  else if N.eqb layout L_SHADER_READ_ONLY then N.lor A_SHADER_READ A_INPUT_ATTACHMENT_READ
  else if N.eqb layout L_TRANSFER_SRC then A_TRANSFER_READ
  else if N.eqb layout L_TRANSFER_DST then A_TRANSFER_WRITE
  else if N.eqb layout L_PRESENT_SRC then A_MEMORY_READ
  else if N.eqb layout L_SHARED_PRESENT then N.ones 32
  else if N.eqb layout L_SHADING_RATE then A_SHADING_RATE_READ
  else if N.eqb layout L_FRAGMENT_DENSITY then A_FRAGMENT_DENSITY_READ
  else 0.
Definition supports (layout access : N) : Prop := N.land access (allowed_access layout) = access.

Definition buf_reads (m : buffer_method) : bool :=
  match m with
  | addOutputStorageBuffer | addClearableOutputStorageBuffer | addOutputStorageBufferView
  | addClearableOutputStorageBufferView | addTransferOutputBuffer => false
  | _ => true
  end.
Definition buf_writes (m : buffer_method) : bool :=
  match m with
  | addOutputStorageBuffer | addClearableOutputStorageBuffer | addInOutStorageBuffer
  | addOutputStorageBufferView | addClearableOutputStorageBufferView | addInOutStorageBufferView
  | addTransferOutputBuffer | addTransferInOutBuffer => true
  | _ => false
  end.
Inductive buf_usage := BUniform | BStorage | BTransfer | BImplicit | BUniformTexel.
Definition buffer_usage (m : buffer_method) : buf_usage :=
  match m with
  | addImplicitBuffer | addImplicitBufferView => BImplicit
  | addUniformBuffer => BUniform
  | addUniformBufferView => BUniformTexel
  | addTransferInputBuffer | addTransferOutputBuffer | addTransferInOutBuffer => BTransfer
  | _ => BStorage
  end.
(* A uniform texel buffer is read with VK_ACCESS_SHADER_READ_BIT, a uniform buffer with VK_ACCESS_UNIFORM_READ_BIT. *)
Definition buf_read_bit (u : buf_usage) : N :=
  match u with BUniform => A_UNIFORM_READ | BUniformTexel | BStorage => A_SHADER_READ | BTransfer => A_TRANSFER_READ | BImplicit => 0 end.
Definition buf_write_bit (u : buf_usage) : N :=
  match u with BStorage => A_SHADER_WRITE | BTransfer => A_TRANSFER_WRITE | _ => 0 end.
Definition buf_stage (u : buf_usage) (compute : bool) : N :=
  match u with BTransfer => S_TRANSFER | BImplicit => 0 | _ => if compute then S_COMPUTE else S_FRAGMENT end.

(* The layout recorded in the attachment: the one of the use, for all aspects together; the explicit one for an implicit view. *)
Definition recorded_layout (m : image_method) (wanted : N) : N :=
  match img_usage m with
  | Sampled => L_SHADER_READ_ONLY
  | Implicit => wanted
  | Storage => L_GENERAL
  | Transfer => if img_reads m then L_TRANSFER_SRC else L_TRANSFER_DST
  | Colour => L_COLOR_ATTACHMENT
  | DepthStencil => L_DEPTH_STENCIL_ATTACHMENT
  end.
(* Methods given the view of a buffer, methods given a binding, and the descriptors of buffers. *)
Definition with_buffer_view (m : buffer_method) : bool :=
  match m with
  | addImplicitBufferView | addUniformBufferView | addInputStorageBufferView | addOutputStorageBufferView
  | addClearableOutputStorageBufferView | addInOutStorageBufferView => true
  | _ => false
  end.
Definition buffer_resource (m : buffer_method) : bool := match buffer_usage m with BTransfer | BImplicit => false | _ => true end.
Definition buffer_descriptor (m : buffer_method) : N :=
  match buffer_usage m with
  | BUniform => DT_UNIFORM_BUFFER
  | BUniformTexel => DT_UNIFORM_TEXEL
  | _ => if with_buffer_view m then DT_STORAGE_TEXEL else DT_STORAGE_BUFFER
  end.
(* Mip levels, resp. layers, of [a] are among those of [b]. *)
Definition mips_within (a b : srange) : Prop := r_mip b <= r_mip a /\ r_mip a + r_levels a <= r_mip b + r_levels b.
Definition layers_within (a b : srange) : Prop := r_layer b <= r_layer a /\ r_layer a + r_layers a <= r_layer b + r_layers b.
(* A non-empty range whose ends are representable. *)
Definition range_ok (r : srange) : Prop :=
  0 < r_levels r /\ 0 < r_layers r /\ r_mip r + r_levels r < 2 ^ 32 /\ r_layer r + r_layers r < 2 ^ 32.
