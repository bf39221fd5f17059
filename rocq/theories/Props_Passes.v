(* C48, C49, C60, C61: compute dispatches, transfers, buffer copies and draws. *)
From Verif Require Import Spec_Passes Proof_Passes.
From Coq Require Import Lia ZifyBool ZifyNat ZifyN.
Local Open Scope N_scope.

(** C48 is false: the callback of X is called for Y and for Z. *)
Definition cfg_of (x y z gx gy gz : option N) (ind : list N) : compute_config :=
  {| cc_x := x; cc_y := y; cc_z := z; cc_getX := gx; cc_getY := gy; cc_getZ := gz; cc_indirect := ind; cc_indirectOffset := 16;
     cc_record := fun c _ => (c, [CUser 1]); cc_end := fun c _ => (c, [CUser 2]) |}.
Theorem C48_own_callback_refuted : exists cfg pipeline set index c x,
  compute_record cfg pipeline set index c = Some x /\
  asked_counts cfg = (4, 5, 6) /\ dispatches (snd x) = [CDispatch 4 4 4].
Proof.
  exists (cfg_of None None None (Some 4) (Some 5) (Some 6) [0]), 1, 2, 0%nat, new_rctx. eexists.
  split; [vm_compute; reflexivity|]. split; vm_compute; reflexivity.
Qed.
Print Assumptions C48_own_callback_refuted.
(* ... and a callback that does not exist is called when only Y or Z has one. *)
Theorem C48_missing_callback_refuted : exists cfg pipeline set index c,
  cc_indirect cfg = [0] /\ compute_record cfg pipeline set index c = None.
Proof.
  exists (cfg_of (Some 8) None None None (Some 5) None [0]), 1, 2, 0%nat, new_rctx. split; vm_compute; reflexivity.
Qed.
Print Assumptions C48_missing_callback_refuted.

(* Exactly when the dispatch of a pass without indirect buffer has the counts asked for. *)
Theorem C48_counts_partial : forall cfg pipeline set index c,
  configured (cc_indirect cfg) index 0 -> no_dispatch (cc_record cfg) -> no_dispatch (cc_end cfg) ->
  let '(x, y, z) := asked_counts cfg in
  (exists r, compute_record cfg pipeline set index c = Some r /\ dispatches (snd r) = [CDispatch x y z])
  <-> (cc_getY cfg = None \/ cc_getY cfg = cc_getX cfg) /\ (cc_getZ cfg = None \/ cc_getZ cfg = cc_getX cfg).
Proof.
  intros cfg pipeline set index c Hi Hr He. unfold asked_counts. unfold compute_record. rewrite (configured_at _ _ _ Hi). cbn [N.eqb negb].
  assert (D : forall x y z, dispatches (snd ((c, bind_cmds pipeline set) >>> (fun c0 => cc_record cfg c0 index) >>> emit [CDispatch x y z] >>> (fun c0 => cc_end cfg c0 index))) = [CDispatch x y z]).
  { intros. rewrite !dispatches_seq. rewrite Hr, He. cbn. reflexivity. }
  assert (D' : forall x y z r, Some ((c, bind_cmds pipeline set) >>> (fun c0 => cc_record cfg c0 index) >>> emit [CDispatch x y z] >>> (fun c0 => cc_end cfg c0 index)) = Some r ->
     dispatches (snd r) = [CDispatch x y z]).
  { intros x y z r E. rewrite <- (D x y z). f_equal. f_equal. congruence. }
  unfold dispatch_counts, asked, or_one.
  destruct (cc_getX cfg) as [gx|]; destruct (cc_getY cfg) as [gy|]; destruct (cc_getZ cfg) as [gz|].
  all: split; [intros (r & E & F)|intros [Hy Hz]].
  all: try discriminate E.
  all: try (apply D' in E; rewrite E in F; inversion F; subst; split; (left; reflexivity) || (right; congruence)).
  all: destruct Hy as [Hy|Hy]; destruct Hz as [Hz|Hz]; try discriminate; try injection Hy as ->; try injection Hz as ->; eexists; (split; [reflexivity|apply D]).
Qed.
Print Assumptions C48_counts_partial.
(* With an indirect buffer, the counts are read from it at its offset. *)
Theorem C48_indirect : forall cfg pipeline set index c b,
  configured (cc_indirect cfg) index b -> b <> 0 -> no_dispatch (cc_record cfg) -> no_dispatch (cc_end cfg) ->
  exists r, compute_record cfg pipeline set index c = Some r /\ dispatches (snd r) = [CDispatchIndirect b (cc_indirectOffset cfg)].
Proof.
  intros cfg pipeline set index c b Hi Hb Hr He. unfold compute_record. rewrite (configured_at _ _ _ Hi).
  destruct (N.eqb_spec b 0) as [E|E]; [contradiction|]. cbn [negb]. eexists. split; [reflexivity|].
  rewrite !dispatches_seq. rewrite Hr, He. reflexivity.
Qed.
Print Assumptions C48_indirect.
Example C48_applies : configured (cc_indirect (cfg_of (Some 2) (Some 3) None (Some 7) None None [0])) 3 0 /\
  asked_counts (cfg_of (Some 2) (Some 3) None (Some 7) None None [0]) = (7, 3, 1) /\
  option_map (fun r => snd r) (compute_record (cfg_of (Some 2) (Some 3) None (Some 7) None None [0]) 1 2 3 new_rctx) =
    Some [CBindPipeline 1; CBindSet 2; CUser 1; CDispatch 7 3 1; CUser 2] /\
  configured [11; 12; 13] 1 12.
Proof. repeat split; try (vm_compute; reflexivity); [constructor|]. apply configured_each; [discriminate|reflexivity]. Qed.

(** C49, image copies: one copy per pair of attachments, in order, from and to the whole configured size of each view. *)
Theorem C49_image_copy : forall e size final views c,
  all_moves (snd (image_copies e size final views c)) =
  map (fun sd => (view_texels (fst sd) (0, 0, 0) size, view_texels (snd sd) (0, 0, 0) size)) (pairs_of views).
Proof. apply image_copies_moves. Qed.
Print Assumptions C49_image_copy.

(* Buffer copies: at the configured offset of both ranges, for the configured size. *)
Theorem C49_buffer_copy : forall src dst index offset size c,
  ba_offset src + offset < 2 ^ 64 -> ba_offset dst + offset < 2 ^ 64 ->
  all_moves (snd (buffer_copy src dst index offset size c)) = [(attach_bytes src index offset size, attach_bytes dst index offset size)].
Proof.
  intros src dst index offset size c Hs Hd. unfold buffer_copy. rewrite !moves_seq, !moves_bbarrier.
  cbn [app snd emit all_moves flat_map moves]. unfold attach_bytes, u64_add, u64. rewrite !N.mod_small by assumption. reflexivity.
Qed.
Print Assumptions C49_buffer_copy.

(* Blits: false when an offset is not zero, the second corner is the size itself. *)
Definition pv (id im mip : N) : view :=
  mkView id {| i_id := im; i_width := 256; i_height := 256; i_depth := 1; i_levels := 4; i_layers := 2; i_format := 37 |} 0 VT_2D 37
    {| r_aspect := ASPECT_COLOR; r_mip := mip; r_levels := 1; r_layer := 1; r_layers := 1 |} [].
Theorem C49_blit_refuted : exists src dst so ss doff ds filter c,
  all_moves (snd (image_blit src dst so ss doff ds filter c)) <> [(view_texels src so ss, view_texels dst doff ds)].
Proof.
  exists (pv 1 1 0), (pv 2 2 1), (16, 16, 0), (64, 64, 1), (0, 0, 0), (64, 64, 1), 1, new_rctx. vm_compute. discriminate.
Qed.
Print Assumptions C49_blit_refuted.
Theorem C49_blit_partial : forall src dst so ss doff ds filter c,
  all_moves (snd (image_blit src dst so ss doff ds filter c)) = [(view_texels src so ss, view_texels dst doff ds)]
  <-> so = (0, 0, 0) /\ doff = (0, 0, 0).
Proof.
  intros src dst [[so1 so2] so3] [[s1 s2] s3] [[do1 do2] do3] [[d1 d2] d3] filter c.
  unfold image_blit, all_moves, moves, view_texels, texels, sub_layers, add3. cbn. split.
  - intro H. injection H as H. split; repeat f_equal; lia.
  - intros [E1 E2]. injection E1 as -> -> ->. injection E2 as -> -> ->. reflexivity.
Qed.
Print Assumptions C49_blit_partial.

(* Copies between buffers and images: false when the buffer attachment does not start at 0. *)
Definition buf_attach (id offset size : N) : attach := declare_buffer addTransferInputBuffer 1 [id] 0 0 offset size no_pstate 0.
Theorem C49_buffer_to_image_refuted : exists src dst index offset size c,
  all_moves (snd (buffer_to_image src dst index offset size c)) <> [(BytesFrom (attach_buffer src index) (ba_offset src), view_texels dst offset size)].
Proof. exists (buf_attach 9 256 512), (pv 1 1 0), 0%nat, (0, 0, 0), (8, 8, 1), new_rctx. vm_compute. discriminate. Qed.
Print Assumptions C49_buffer_to_image_refuted.
Theorem C49_image_to_buffer_refuted : exists src dst index offset size c,
  all_moves (snd (image_to_buffer src dst index offset size c)) <> [(view_texels src offset size, BytesFrom (attach_buffer dst index) (ba_offset dst))].
Proof. exists (pv 1 1 0), (buf_attach 9 256 512), 0%nat, (0, 0, 0), (8, 8, 1), new_rctx. vm_compute. discriminate. Qed.
Print Assumptions C49_image_to_buffer_refuted.
Theorem C49_buffer_image_partial : forall b v index offset size c,
  (all_moves (snd (buffer_to_image b v index offset size c)) = [(BytesFrom (attach_buffer b index) (ba_offset b), view_texels v offset size)] <-> ba_offset b = 0) /\
  (all_moves (snd (image_to_buffer v b index offset size c)) = [(view_texels v offset size, BytesFrom (attach_buffer b index) (ba_offset b))] <-> ba_offset b = 0).
Proof.
  intros b v index offset size c. unfold buffer_to_image, image_to_buffer, all_moves, moves, view_texels, texels, sub_layers. cbn.
  split; split; intro H; try (injection H as H); try rewrite H; congruence.
Qed.
Print Assumptions C49_buffer_image_partial.

(** C60: the copy of a buffer copy pass runs with its source made readable and its destination made
    writable by the transfers, whatever was known before, and both are given back to the shaders. *)
Theorem C60_buffer_copy_synchronised : forall src dst index offset size c,
  let s := attach_buffer src index in let d := attach_buffer dst index in
  s <> d ->
  exists pre post copy,
    snd (buffer_copy src dst index offset size c) = pre ++ copy :: post /\
    all_moves (pre ++ post) = [] /\
    scope_after (known_access c s A_SHADER_WRITE S_FRAGMENT) pre s = {| ps_access := A_TRANSFER_READ; ps_stage := S_TRANSFER |} /\
    scope_after (known_access c d 0 S_BOTTOM) pre d = {| ps_access := A_TRANSFER_WRITE; ps_stage := S_TRANSFER |} /\
    scope_after {| ps_access := A_TRANSFER_READ; ps_stage := S_TRANSFER |} post s = {| ps_access := A_SHADER_WRITE; ps_stage := S_FRAGMENT |} /\
    scope_after {| ps_access := A_TRANSFER_WRITE; ps_stage := S_TRANSFER |} post d = {| ps_access := A_SHADER_READ; ps_stage := S_COMPUTE |} /\
    (let c' := fst (buffer_copy src dst index offset size c) in
     getAccessState c' s = {| ps_access := A_SHADER_WRITE; ps_stage := S_FRAGMENT |} /\
     getAccessState c' d = {| ps_access := A_SHADER_READ; ps_stage := S_COMPUTE |}).
Proof.
  intros src dst index offset size c s d H.
  destruct (buffer_copy_shape src dst index offset size c H) as (pre & post & c' & E & A1 & A2 & A3 & A4 & A5 & A6 & A7 & A8).
  exists pre, post. eexists. rewrite E. cbn [fst snd]. split; [reflexivity|]. rewrite all_moves_app, A5, A6. fold s d in A1, A2, A3, A4, A7, A8. auto 10.
Qed.
Print Assumptions C60_buffer_copy_synchronised.
Example C60_applies : snd (buffer_copy (buf_attach 9 256 512) (buf_attach 10 0 512) 0 16 64 new_rctx) =
  [CBufferBarrier 9 256 512 S_FRAGMENT S_TRANSFER A_SHADER_WRITE A_TRANSFER_READ; CBufferBarrier 10 0 512 S_BOTTOM S_TRANSFER 0 A_TRANSFER_WRITE;
   CCopyBuffer 9 10 272 16 64;
   CBufferBarrier 10 0 512 S_TRANSFER S_COMPUTE A_TRANSFER_WRITE A_SHADER_READ; CBufferBarrier 9 256 512 S_TRANSFER S_FRAGMENT A_TRANSFER_READ A_SHADER_WRITE].
Proof. vm_compute. reflexivity. Qed.

(** C61: a quad pass makes one draw of one triangle per instance, a mesh pass one draw; each draw is
    indexed or indirect exactly when there is an index or an indirect buffer for the pass index, and runs
    with the buffers of that index bound. *)
Theorem C61_quad_draw : forall vertex indirect offset stride instances index i before,
  configured indirect index i ->
  draws before (quad_draw vertex indirect offset stride instances index) =
  [((if N.eqb vertex 0 then fst before else vertex, snd before),
    if N.eqb i 0 then Direct 3 instances else Indirect i offset stride)].
Proof.
  intros vertex indirect offset stride instances index i [bv bi] Hc. unfold quad_draw. rewrite (configured_at _ _ _ Hc).
  destruct (N.eqb vertex 0), (N.eqb i 0); reflexivity.
Qed.
Print Assumptions C61_quad_draw.
Theorem C61_mesh_draw : forall m index v x i before,
  configured (mc_vertex m) index v -> configured (mc_index m) index x -> configured (mc_indirect m) index i ->
  draws before (mesh_draw m index) =
  [((if N.eqb v 0 then fst before else v, if N.eqb x 0 then snd before else x),
    match N.eqb i 0, N.eqb x 0 with
    | true, true => Direct (mc_vertexCount m) 1
    | true, false => Indexed (mc_primitiveCount m) 1
    | false, true => Indirect i (mc_indirectOffset m) (mc_indirectStride m)
    | false, false => IndexedIndirect i (mc_indirectOffset m) (mc_indirectStride m)
    end)].
Proof.
  intros m index v x i [bv bi] Hv Hx Hi. unfold mesh_draw. rewrite (configured_at _ _ _ Hv), (configured_at _ _ _ Hx), (configured_at _ _ _ Hi).
  destruct (N.eqb v 0), (N.eqb x 0), (N.eqb i 0); reflexivity.
Qed.
Print Assumptions C61_mesh_draw.
Example C61_applies :
  mesh_draw {| mc_vertex := [3; 4]; mc_index := [5]; mc_indirect := [0; 8]; mc_indirectOffset := 32; mc_indirectStride := 16; mc_vertexCount := 9; mc_primitiveCount := 12 |} 1
  = [CBindVertexBuffer 4; CBindIndexBuffer 5; CDrawIndexedIndirect 8 32 16].
Proof. reflexivity. Qed.
