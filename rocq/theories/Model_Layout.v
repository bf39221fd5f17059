(* Model of the layout tracking.
   Sources: source/RenderGraph/FrameGraph.cpp:403-638, source/RenderGraph/LayerLayoutStatesHandler.cpp:10-73,
   include/RenderGraph/FrameGraphPrerequisites.hpp:158-161. *)
From Verif Require Export Model_Vk.
Local Open Scope N_scope.

(* FrameGraphPrerequisites.hpp: PipelineState, LayoutState *)
Record pstate := { ps_access : N; ps_stage : N }.
Record lstate := { ls_layout : N; ls_state : pstate }.
Definition mk_lstate (layout access stage : N) : lstate :=
  {| ls_layout := layout; ls_state := {| ps_access := access; ps_stage := stage |} |}.

(* FrameGraph.cpp:403-451: getAccessMask( VkImageLayout ) *)
Definition getAccessMask (layout : N) : N :=
  if orb (N.eqb layout L_PRESENT_SRC) (N.eqb layout L_SHARED_PRESENT) then A_MEMORY_READ
  else if N.eqb layout L_COLOR_ATTACHMENT then A_COLOR_WRITE
  else if N.eqb layout L_DEPTH_STENCIL_ATTACHMENT then A_DS_WRITE
  else if N.eqb layout L_DEPTH_STENCIL_READ_ONLY then A_DS_READ
  else if N.eqb layout L_SHADER_READ_ONLY then A_SHADER_READ
  else if N.eqb layout L_TRANSFER_SRC then A_TRANSFER_READ
  else if N.eqb layout L_TRANSFER_DST then A_TRANSFER_WRITE
  else if orb (N.eqb layout L_DEPTH_RO_STENCIL_ATT) (N.eqb layout L_DEPTH_ATT_STENCIL_RO) then N.lor A_DS_READ A_DS_WRITE
  else if N.eqb layout L_SHADING_RATE then A_SHADING_RATE_READ
  else if N.eqb layout L_FRAGMENT_DENSITY then A_FRAGMENT_DENSITY_READ
  else 0.

(* FrameGraph.cpp:504-549: getStageMask( VkImageLayout ) *)
Definition getStageMask (layout : N) : N :=
  if N.eqb layout L_UNDEFINED then S_HOST
  else if N.eqb layout L_GENERAL then S_BOTTOM
  else if orb (N.eqb layout L_PRESENT_SRC) (N.eqb layout L_SHARED_PRESENT) then S_BOTTOM
  else if orb (orb (N.eqb layout L_DEPTH_STENCIL_READ_ONLY) (N.eqb layout L_DEPTH_RO_STENCIL_ATT))
              (orb (N.eqb layout L_DEPTH_ATT_STENCIL_RO) (N.eqb layout L_DEPTH_STENCIL_ATTACHMENT)) then S_LATE_TESTS
  else if N.eqb layout L_COLOR_ATTACHMENT then S_COLOR_OUTPUT
  else if orb (N.eqb layout L_FRAGMENT_DENSITY) (N.eqb layout L_SHADER_READ_ONLY) then S_FRAGMENT
  else if orb (N.eqb layout L_TRANSFER_SRC) (N.eqb layout L_TRANSFER_DST) then S_TRANSFER
  else if N.eqb layout L_SHADING_RATE then S_SHADING_RATE
  else 0.

(* FrameGraph.cpp:497-502: makeLayoutState *)
Definition makeLayoutState (layout : N) : lstate := mk_lstate layout (getAccessMask layout) (getStageMask layout).

(* FrameGraph.cpp:453-495: getPipelineState( VkPipelineStageFlags ) *)
Definition has_bits (flags b : N) : bool := N.eqb (N.land flags b) b.
Definition getPipelineState (flags : N) : pstate :=
  let add b a r := if has_bits flags b then N.lor r a else r in
  let r := add S_BOTTOM A_MEMORY_READ 0 in
  let r := add S_COLOR_OUTPUT (N.lor A_COLOR_WRITE A_COLOR_READ) r in
  let r := add S_LATE_TESTS (N.lor A_DS_WRITE A_DS_READ) r in
  let r := add S_FRAGMENT A_SHADER_READ r in
  let r := add S_TRANSFER (N.lor A_TRANSFER_READ A_TRANSFER_WRITE) r in
  let r := add S_SHADING_RATE A_SHADING_RATE_READ r in
  let r := add S_COMPUTE A_SHADER_READ r in
  {| ps_access := r; ps_stage := flags |}.

(* FrameGraphPrerequisites.hpp:158-159: MipLayoutStates, LayerLayoutStates *)
Definition mip_states := nmap lstate.
Definition layer_states := nmap mip_states.

(* FrameGraph.cpp:562-577: addSubresourceRangeLayout.  try_emplace creates an empty layer entry. *)
Definition addSubresourceRangeLayout (ranges : layer_states) (r : srange) (newLayout : lstate) : layer_states :=
  fold_left (fun acc layer =>
    let layers := match mfind layer acc with Some m => m | None => [] end in
    mput layer (fold_left (fun ms mip => mput mip newLayout ms) (wrapped_from (r_mip r) (r_levels r)) layers) acc)
  (wrapped_from (r_layer r) (r_layers r)) ranges.

(* FrameGraph.cpp:600-611: states.emplace( state.layout, state ), access masks merged when present *)
Definition collect (states : nmap lstate) (s : lstate) : nmap lstate :=
  match mfind (ls_layout s) states with
  | None => mput (ls_layout s) s states
  | Some o => mput (ls_layout s) (mk_lstate (ls_layout o) (N.lor (ps_access (ls_state o)) (ps_access (ls_state s))) (ps_stage (ls_state o))) states
  end.

(* FrameGraph.cpp:579-621: getSubresourceRangeLayout *)
Definition getSubresourceRangeLayout (ranges : layer_states) (r : srange) : lstate :=
  let states :=
    fold_left (fun acc layer =>
      match mfind layer ranges with
      | None => acc
      | Some layers =>
          fold_left (fun acc mip => match mfind mip layers with None => acc | Some s => collect acc s end)
            (wrapped_from (r_mip r) (r_levels r)) acc
      end) (wrapped_from (r_layer r) (r_layers r)) [] in
  match states with
  | [] => makeLayoutState L_UNDEFINED
  | (_, s) :: _ => s
  end.

(* ImageId with its ImageData (ImageData.hpp): the fields used below.
   Simplification: extent, number of levels and layers, format and type only. *)
Record image := { i_id : N; i_width : N; i_height : N; i_depth : N; i_levels : N; i_layers : N; i_format : N }.

(* FrameGraph.cpp:623-638: getVirtualRange.  A shift by 32 or more is undefined in C++ and not
   represented: Vulkan images have at most 32 levels, so range.baseMipLevel < 32. *)
Definition getVirtualRange (im : image) (vt : N) (r : srange) : srange :=
  if andb (N.eqb vt VT_3D) (orb (N.eqb (r_levels r) 1) (N.eqb (r_levels r) (i_levels im)))
  then {| r_aspect := r_aspect r; r_mip := r_mip r; r_levels := r_levels r;
          r_layer := 0; r_layers := N.shiftr (i_depth im) (r_mip r) |}
  else r.

(* LayerLayoutStatesHandler.hpp: images, a map from image id *)
Definition handler := nmap layer_states.

(* LayerLayoutStatesHandler.cpp:17-23: addStates: std::map::insert per image *)
Definition addStates (h data : handler) : handler :=
  fold_left (fun acc e => minsert (fst e) (snd e) acc) data h.

(* LayerLayoutStatesHandler.cpp:25-37: setLayoutState *)
Definition setLayoutState (h : handler) (im : image) (vt : N) (r : srange) (s : lstate) : handler :=
  let cur := match mfind (i_id im) h with Some m => m | None => [] end in
  mput (i_id im) (addSubresourceRangeLayout cur (getVirtualRange im vt r) s) h.

(* LayerLayoutStatesHandler.cpp:50-65: getLayoutState *)
Definition getLayoutState (h : handler) (im : image) (vt : N) (r : srange) : lstate :=
  match mfind (i_id im) h with
  | Some m => getSubresourceRangeLayout m (getVirtualRange im vt r)
  | None => mk_lstate L_UNDEFINED 0 S_BOTTOM
  end.
