(* C111: the sizes of mip levels. *)
From Verif Require Import Spec_Extent Spec_Record Proof_Extent Props_Layout.
From Coq Require Import Lia List.
Import ListNotations.
Local Open Scope N_scope.

(** C111: the extent given for a view is that of Vulkan for its first level, when no dimension of the image is exhausted before it. *)
Theorem C111_mip_extent_partial : forall v,
  let im := v_image v in let level := r_mip (v_range v) in
  2 ^ level <= i_width im -> 2 ^ level <= i_height im -> 2 ^ level <= i_depth im -> getMipExtent v = level_extent im level.
Proof.
  intros v im level W H D. unfold getMipExtent, getExtent, level_extent. fold im level.
  assert (P : 0 < 2 ^ level) by (apply N.neq_0_lt_0, N.pow_nonzero; discriminate).
  rewrite !mip_dim by lia. repeat match goal with |- context [N.ltb ?a ?b] => destruct (N.ltb_spec a b); [lia|] end. reflexivity.
Qed.
Print Assumptions C111_mip_extent_partial.
(* Each other dimension is given as 0 instead of 1. *)
Theorem C111_exhausted_dimension_refuted : forall v, let im := v_image v in let level := r_mip (v_range v) in
  (0 < i_width im -> i_width im < 2 ^ level -> fst (fst (getMipExtent v)) = 0 /\ 1 <= level_size (i_width im) (N.to_nat level)) /\
  (0 < i_height im -> i_height im < 2 ^ level -> snd (fst (getMipExtent v)) = 0 /\ 1 <= level_size (i_height im) (N.to_nat level)) /\
  (0 < i_depth im -> i_depth im < 2 ^ level -> snd (getMipExtent v) = 0 /\ 1 <= level_size (i_depth im) (N.to_nat level)).
Proof.
  intros v im level. unfold getMipExtent, getExtent. fold im level. cbn [fst snd].
  assert (P : forall size, 0 < size -> size < 2 ^ level -> N.shiftr size level = 0 /\ 1 <= level_size size (N.to_nat level)).
  { intros size H0 H1. split; [apply shift_small; exact H1|]. rewrite level_size_shift by exact H0. lia. }
  repeat split; intros; apply P; assumption.
Qed.
Print Assumptions C111_exhausted_dimension_refuted.
(* Every level but the first of every 2D image (whose depth is 1) is among them. *)
Theorem C111_2d_depth_refuted : forall v, i_depth (v_image v) = 1 -> 0 < r_mip (v_range v) -> snd (getMipExtent v) = 0.
Proof.
  intros v D L. unfold getMipExtent, getExtent. cbn [snd]. rewrite D. apply shift_small.
  replace 1 with (2 ^ 0) at 1 by reflexivity. apply N.pow_lt_mono_r; lia.
Qed.
Print Assumptions C111_2d_depth_refuted.

(* The slices of one level of a 3D image that the graph follows are those of Vulkan, when the depth is not exhausted. *)
Theorem C111_followed_slices_partial : forall im r, r_levels r = 1 -> 2 ^ r_mip r <= i_depth im ->
  r_layer (getVirtualRange im VT_3D r) = 0 /\ r_layers (getVirtualRange im VT_3D r) = level_size (i_depth im) (N.to_nat (r_mip r)) /\
  r_mip (getVirtualRange im VT_3D r) = r_mip r /\ r_levels (getVirtualRange im VT_3D r) = 1.
Proof.
  intros im r L D. unfold getVirtualRange. rewrite L. change (N.eqb VT_3D VT_3D) with true. cbn [andb orb N.eqb Pos.eqb r_layer r_layers r_mip r_levels].
  assert (P : 0 < 2 ^ r_mip r) by (apply N.neq_0_lt_0, N.pow_nonzero; discriminate).
  rewrite mip_dim by lia. destruct (N.ltb_spec (i_depth im) (2 ^ r_mip r)); [lia|]. repeat split; reflexivity.
Qed.
Print Assumptions C111_followed_slices_partial.
(* Otherwise none is followed: whatever was recorded before, a pass that reads the level through a 3D view brings it from the
   undefined layout, which discards what it holds. *)
Theorem C111_small_level_discarded_refuted : forall e g p a c, let v := attach_view a (rp_index p) in
  (exists pass views binding wanted flag misc m, a = declare_image m pass views binding wanted flag misc /\ (m = addSampledView \/ m = addTransferInputView)) ->
  v_type v = VT_3D -> r_levels (v_range v) = 1 -> i_depth (v_image v) < 2 ^ r_mip (v_range v) ->
  isDepthStencilFormat (i_format (v_image v)) = false -> rc_implicit c = [] ->
  exists im r stage access new, snd (record_image e g p a c) = [CImageBarrier im r S_HOST stage 0 access L_UNDEFINED new] /\
    im = i_id (v_image v) /\ r = v_range v /\ (new = L_SHADER_READ_ONLY \/ new = L_TRANSFER_SRC).
Proof.
  intros e g p a c v (pass & views & binding & wanted & flag & misc & m & Ea & Hm) T L D F Q.
  destruct (small_level_current g c (v_image v) (v_range v) L D) as (cur & Ec & Eu).
  assert (R : record_image e g p a c = memoryBarrier (e_separate e) c (v_image v) VT_3D (v_range v) (ls_layout cur)
     (makeLayoutState (if match m with addSampledView => true | _ => false end then L_SHADER_READ_ONLY else L_TRANSFER_SRC)) false).
  { assert (I : runImplicit e c (rp_index p) v = (c, [])) by (unfold runImplicit; rewrite Q; cbn; rewrite Q; reflexivity).
    unfold record_image. fold v. rewrite I. cbn [seq2 app].
    destruct Hm as [-> | ->]; subst a; cbn [declare_image]; 
    match goal with |- context [isNoTransition ?x] => set (at0 := x) in * end.
    - change (isNoTransition at0) with false. change (isSampledView at0) with true. change (isInput at0) with true. change (isClearableImage at0) with false.
      cbn [negb andb orb]. rewrite T, Ec. unfold memoryBarrier_view. rewrite T.
      replace (a_getImageLayout at0 (e_separate e)) with L_SHADER_READ_ONLY by (destruct (e_separate e); reflexivity).
      destruct (memoryBarrier _ _ _ _ _ _ _ _). reflexivity.
    - change (isNoTransition at0) with false. change (isTransferView at0) with true. change (isInput at0) with true. change (isClearableImage at0) with false.
      cbn [negb andb orb]. rewrite !Bool.orb_true_r. rewrite T, Ec. unfold memoryBarrier_view. rewrite T.
      replace (a_getImageLayout at0 (e_separate e)) with L_TRANSFER_SRC by (destruct (e_separate e); reflexivity).
      destruct (memoryBarrier _ _ _ _ _ _ _ _). reflexivity. }
  rewrite R, Eu.
  destruct Hm as [-> | ->]; rewrite small_level_barrier by (assumption || reflexivity || discriminate);
    do 5 eexists; (split; [reflexivity|]); repeat split; auto.
Qed.
Print Assumptions C111_small_level_discarded_refuted.

(* The level 3 of a 16 x 16 x 4 image, and its level 2. *)
Definition small3d : view := mkView 5 img3d 37 VT_3D 0 (rng 3 1 0 1) [].
Example C111_applies : r_levels (v_range small3d) = 1 /\ i_depth (v_image small3d) < 2 ^ r_mip (v_range small3d) /\ r_mip (v_range small3d) < i_levels (v_image small3d) /\
  getMipExtent small3d = (2, 2, 0) /\ level_extent (v_image small3d) 3 = (2, 2, 1) /\ getMipExtent (mkView 5 img3d 37 VT_3D 0 (rng 2 1 0 1) []) = level_extent img3d 2 /\
  level_extent img3d 2 = (4, 4, 1) /\ isDepthStencilFormat (i_format (v_image small3d)) = false.
Proof. vm_compute. repeat split; reflexivity. Qed.
