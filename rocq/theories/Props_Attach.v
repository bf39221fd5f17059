(* C28, C29: attachment declaration and merged views. *)
From Verif Require Import Spec_Attach Proof_Attach.
From Coq Require Import ZifyBool ZifyNat ZifyN.
Local Open Scope N_scope.

(* C28: read/write classification of every image declaration method. *)
Theorem C28_image_classification : forall m pass views binding wanted flag misc,
  let a := declare_image m pass views binding wanted flag misc in
  isImage a = true /\ isInput a = img_reads m /\ isOutput a = img_writes m /\ ia_views a = views /\ at_pass a = Some pass.
Proof.
  intros m pass views binding wanted flag misc. destruct m; try (repeat split; reflexivity).
  cbv zeta. unfold isImage, isInput, isOutput. destruct (inout_flags flag) as (H1 & H2 & H3).
  repeat split; assumption.
Qed.

(* C28: access mask of every image method: the read bit of its usage iff it reads, the write bit iff it writes. *)
Theorem C28_image_access : forall m pass views binding wanted flag misc,
  img_usage m <> Implicit ->
  a_getAccessMask (declare_image m pass views binding wanted flag misc)
  = N.lor (if img_reads m then read_bit (img_usage m) else 0) (if img_writes m then write_bit (img_usage m) else 0).
Proof.
  intros m pass views binding wanted flag misc Hu. destruct m; try reflexivity; try (exfalso; apply Hu; reflexivity).
  unfold a_getAccessMask, isImage, isInput, isOutput. destruct (inout_flags flag) as (H1 & H2 & H3).
  cbn [declare_image at_flags mk_image_attach]. change (N.eqb LO_DONT_CARE LO_LOAD) with false. change (N.eqb SO_DONT_CARE SO_STORE) with false.
  cbv iota. rewrite H1, H2, H3. reflexivity.
Qed.

(* C28: an implicit view is wanted in the given layout, with the access and stage of that layout. *)
Theorem C28_implicit_layout : forall m pass views binding wanted flag misc separate compute,
  img_usage m = Implicit ->
  let a := declare_image m pass views binding wanted flag misc in
  a_getImageLayout a separate = wanted /\ a_getAccessMask a = getAccessMask wanted /\
  a_getPipelineStageFlags a compute = getStageMask wanted.
Proof. intros m pass views binding wanted flag misc separate compute Hu. destruct m; try discriminate; repeat split. Qed.

Lemma own_access_supported w : supports w (getAccessMask w).
Proof.
  unfold supports, allowed_access, getAccessMask. cbn [existsb].
  repeat match goal with |- context [N.eqb w ?x] => destruct (N.eqb_spec w x) as [->|] end; reflexivity.
Qed.

(* C28: the layout requested supports the access; the read-write transfer method is the exception. *)
Theorem C28_layout_supports_access_partial : forall m pass views binding wanted flag misc separate,
  m <> addTransferInOutView ->
  let a := declare_image m pass views binding wanted flag misc in
  supports (a_getImageLayout a separate) (a_getAccessMask a).
Proof.
  intros m pass views binding wanted flag misc separate Hm.
  destruct m; try (destruct separate; reflexivity); try (exfalso; apply Hm; reflexivity); apply own_access_supported.
Qed.

Theorem C28_transfer_inout_layout_refuted : exists pass views binding wanted flag misc separate,
  let a := declare_image addTransferInOutView pass views binding wanted flag misc in
  ~ supports (a_getImageLayout a separate) (a_getAccessMask a).
Proof. exists 1, [], 0, 0, 0, 0, false. discriminate. Qed.

(* C28: the layout requested is the one named after the use. *)
Theorem C28_image_layout : forall m pass views binding wanted flag misc separate,
  img_usage m <> Implicit ->
  a_getImageLayout (declare_image m pass views binding wanted flag misc) separate = named_layout m separate.
Proof.
  intros m pass views binding wanted flag misc separate Hu. destruct m; try (destruct separate; reflexivity); try (exfalso; apply Hu; reflexivity).
  unfold a_getImageLayout, isInput, isOutput. destruct (inout_flags flag) as (H1 & H2 & H3).
  cbn [declare_image at_flags mk_image_attach]. change (N.eqb LO_DONT_CARE LO_LOAD) with false. change (N.eqb SO_DONT_CARE SO_STORE) with false.
  cbv iota. rewrite H2. reflexivity.
Qed.
(* C28: the contents of the targets: loaded when read, cleared when only written, stored when written; each aspect on its own. *)
Theorem C28_target_contents : forall m pass views binding wanted flag misc,
  let a := declare_image m pass views binding wanted flag misc in
  (img_usage m = Colour -> ia_load a = named_load m /\ ia_store a = named_store m) /\
  (img_usage m = DepthStencil -> img_aspects m <> StencilOnly -> ia_load a = named_load m /\ ia_store a = named_store m) /\
  (img_usage m = DepthStencil -> img_aspects m <> DepthOnly -> ia_sload a = named_load m /\ ia_sstore a = named_store m) /\
  ia_misc a = misc.
Proof. intros m pass views binding wanted flag misc. destruct m; cbn; repeat split; try discriminate; try (intros; congruence). Qed.
(* C28: shader resources are bound at the given binding, with the type of descriptor of their use. *)
Theorem C28_image_binding : forall m pass views binding wanted flag misc,
  shader_resource m = true ->
  let a := declare_image m pass views binding wanted flag misc in
  at_binding a = binding /\ a_getDescriptorType a = named_descriptor m.
Proof. intros m pass views binding wanted flag misc H. destruct m; try discriminate; split; reflexivity. Qed.
Print Assumptions C28_image_layout.
Print Assumptions C28_target_contents.
Print Assumptions C28_image_binding.
Example C28_image_examples :
  named_layout addInputDepthView true = L_DEPTH_READ_ONLY /\ named_layout addInOutStencilView false = L_DEPTH_STENCIL_ATTACHMENT /\
  ia_sload (declare_image addInOutStencilView 1 [] 0 0 0 0) = LO_LOAD /\ ia_load (declare_image addOutputDepthStencilView 1 [] 0 0 0 0) = LO_CLEAR.
Proof. repeat split. Qed.

(* C28: the stage is the one of the access; a view sampled by a compute pass is the exception. *)
Theorem C28_image_stage_partial : forall m pass views binding wanted flag misc compute,
  img_usage m <> Implicit -> (m = addSampledView -> compute = false) ->
  a_getPipelineStageFlags (declare_image m pass views binding wanted flag misc) compute = use_stage (img_usage m) compute.
Proof.
  intros m pass views binding wanted flag misc compute Hu Hs.
  destruct m; try reflexivity; try (exfalso; apply Hu; reflexivity).
  - rewrite (Hs eq_refl). reflexivity.
  - unfold a_getPipelineStageFlags, isImage. destruct (inout_flags flag) as (H1 & H2 & H3).
    cbn [declare_image at_flags mk_image_attach]. change (N.eqb LO_DONT_CARE LO_LOAD) with false. change (N.eqb SO_DONT_CARE SO_STORE) with false.
    cbv iota. rewrite H3. reflexivity.
Qed.

Theorem C28_sampled_in_compute_refuted : exists pass views binding wanted flag misc,
  a_getPipelineStageFlags (declare_image addSampledView pass views binding wanted flag misc) true <> use_stage Sampled true.
Proof. exists 1, [], 0, 0, 0, 0. discriminate. Qed.

(* C28: buffer methods. *)
Theorem C28_buffer_classification : forall m pass bufs binding bview off size wanted flag,
  let a := declare_buffer m pass bufs binding bview off size wanted flag in
  isBuffer a = true /\ isInput a = buf_reads m /\ isOutput a = buf_writes m /\
  ba_buffers a = bufs /\ ba_offset a = off /\ ba_size a = size /\ at_pass a = Some pass.
Proof.
  intros m pass bufs binding bview off size wanted flag. destruct m; try (repeat split; reflexivity).
  cbv zeta. unfold isBuffer, isInput, isOutput. cbn [declare_buffer at_flags mk_buffer_attach ba_buffers ba_offset ba_size at_pass].
  repeat split.
  - apply hasFlag_lor_r.
  - do 2 apply hasFlag_lor_l. reflexivity.
  - do 2 apply hasFlag_lor_l. reflexivity.
Qed.

(* Storage, transfer and texel buffers have the access and the stage of their name.  The flag given to
   addTransferInOutBuffer must not turn it into an image. *)
Theorem C28_buffer_access_partial : forall m pass bufs binding bview off size wanted flag compute,
  buffer_usage m <> BImplicit -> buffer_usage m <> BUniform -> hasFlag flag AF_Image = false ->
  let a := declare_buffer m pass bufs binding bview off size wanted flag in
  a_getAccessMask a = N.lor (if buf_reads m then buf_read_bit (buffer_usage m) else 0) (if buf_writes m then buf_write_bit (buffer_usage m) else 0)
  /\ a_getPipelineStageFlags a compute = buf_stage (buffer_usage m) compute.
Proof.
  intros m pass bufs binding bview off size wanted flag compute Hi Hu Hf. destruct m; try (split; reflexivity);
    try (exfalso; apply Hi; reflexivity); try (exfalso; apply Hu; reflexivity).
  cbv zeta. unfold a_getAccessMask, a_getPipelineStageFlags, isImage, isInput, isOutput.
  cbn [declare_buffer at_flags mk_buffer_attach].
  assert (E : hasFlag (N.lor (N.lor AF_InOut flag) AF_Buffer) AF_Image = false).
  { unfold hasFlag in *. apply N.eqb_neq in Hf. apply N.eqb_neq. intro C. apply Hf. clear Hf.
    apply N.bits_inj. intro k. apply (f_equal (fun x => N.testbit x k)) in C.
    rewrite !N.land_spec, !N.lor_spec in C. rewrite N.land_spec.
    destruct (N.eq_dec k 2) as [->|Hk]; [cbn in C |- *; rewrite orb_false_r in C; exact C|].
    assert (Z : N.testbit AF_Image k = false).
    { change AF_Image with (2 ^ 2). rewrite N.pow2_bits_eqb. apply N.eqb_neq. congruence. }
    rewrite Z. apply andb_false_r. }
  rewrite E. rewrite !hasFlag_lor_l by (try apply hasFlag_lor_l; reflexivity). split; reflexivity.
Qed.

(* An implicit buffer is wanted exactly in the given access state. *)
Theorem C28_implicit_buffer : forall m pass bufs binding bview off size wanted flag compute,
  buffer_usage m = BImplicit ->
  let a := declare_buffer m pass bufs binding bview off size wanted flag in
  a_getAccessMask a = ps_access wanted /\ a_getPipelineStageFlags a compute = ps_stage wanted.
Proof. intros m pass bufs binding bview off size wanted flag compute H. destruct m; try discriminate; split; reflexivity. Qed.

(* A uniform buffer does not get the uniform read access. *)
Theorem C28_uniform_access_refuted : exists pass bufs binding bview off size wanted flag,
  N.land (a_getAccessMask (declare_buffer addUniformBuffer pass bufs binding bview off size wanted flag)) A_UNIFORM_READ = 0.
Proof. exists 1, [], 0, 0, 0, 0, no_pstate, 0. reflexivity. Qed.

(* C28: a buffer used by shaders is bound at the given binding, with the descriptor type of its use; the others at no binding.  The view is the given one
   for the methods taking one, none for the others. *)
Theorem C28_buffer_binding : forall m pass bufs binding bview off size wanted flag,
  let a := declare_buffer m pass bufs binding bview off size wanted flag in
  (buffer_resource m = true -> at_binding a = binding /\ a_getDescriptorType a = buffer_descriptor m) /\
  (buffer_resource m = false -> at_binding a = 2 ^ 32 - 1) /\
  ba_view a = (if with_buffer_view m then bview else 0) /\
  (buffer_usage m = BImplicit -> ba_wanted a = wanted) /\ ia_views a = [].
Proof. intros m pass bufs binding bview off size wanted flag. destruct m; cbn -[N.pow]; repeat split; discriminate. Qed.
Print Assumptions C28_buffer_binding.
Example C28_buffer_binding_applies :
  let a := declare_buffer addInOutStorageBufferView 1 [40] 3 77 16 32 no_pstate 0 in
  at_binding a = 3 /\ a_getDescriptorType a = 5 /\ ba_view a = 77 /\ a_getDescriptorType (declare_buffer addUniformBuffer 1 [40] 3 77 16 32 no_pstate 0) = 6.
Proof. repeat split. Qed.

(* C28: what an image attachment records: the layout of its use; no buffer; views without binding at no binding.  The attachment made for a view that no
   pass declares has this view only, no pass, and is neither read nor written. *)
Theorem C28_image_record : forall m pass views binding wanted flag misc,
  let a := declare_image m pass views binding wanted flag misc in
  ia_wanted a = recorded_layout m wanted /\ ba_buffers a = [] /\ ba_view a = 0 /\ ba_offset a = 0 /\ ba_size a = 0 /\
  (img_usage m = Implicit \/ img_usage m = Transfer -> at_binding a = 2 ^ 32 - 1).
Proof.
  intros m pass views binding wanted flag misc. destruct m; cbn -[N.pow]; repeat (split; [reflexivity|]); intros [D|D]; first [reflexivity|discriminate D].
Qed.
Theorem C28_default_record : forall v b,
  let a := default_image_attach v in let c := default_buffer_attach b in
  (isImage a = true /\ isBuffer a = false /\ ia_views a = [v] /\ ia_flags a = 0 /\ ba_buffers a = []) /\
  (isBuffer c = true /\ isImage c = false /\ ba_buffers c = b /\ ba_flags c = 0 /\ ba_view c = 0 /\ ba_offset c = 0 /\ ba_size c = 0 /\ ba_wanted c = {| ps_access := 0; ps_stage := 0 |} /\ ia_views c = []) /\
  (forall x, x = a \/ x = c -> at_pass x = None /\ at_binding x = 0 /\ isInput x = false /\ isOutput x = false).
Proof. intros v b. cbv zeta. split; [repeat split|]. split; [repeat split|]. intros x [-> | ->]; repeat split. Qed.
Print Assumptions C28_image_record.
Print Assumptions C28_default_record.
Example C28_image_record_applies : ia_wanted (declare_image addTransferInOutView 1 [] 0 0 0 0) = L_TRANSFER_SRC /\ at_binding (declare_image addImplicitDepthView 1 [] 3 L_GENERAL 0 0) = 4294967295.
Proof. split; reflexivity. Qed.

(* C29: the merged view covers its sources, is the smallest such range, and records the sources in order. *)
Theorem C29_merged_covers_sources_partial : forall id cube v vs,
  i_id (v_image v) <> 0 -> (forall x, In x (v :: vs) -> range_ok (v_range x)) ->
  let m := mergeViews id cube (v :: vs) true true in
  (forall x, In x (v :: vs) -> sub_range (v_range x) (v_range m)) /\
  (forall big, (forall x, In x (v :: vs) -> sub_range (v_range x) big) -> sub_range (v_range m) big) /\
  v_source m = v :: vs /\ v_image m = v_image v /\ v_format m = v_format v /\ v_id m = id.
Proof.
  intros id cube v vs Hi H. destruct (merge_covers id cube true true v vs Hi H) as (d & C & E).
  cbv zeta. rewrite E. cbn. split; [|split; [|repeat split]].
  - intros x Hx la mi (H1 & H2). destruct (cov_mip _ _ _ _ C eq_refl x Hx). destruct (cov_layer _ _ _ _ C eq_refl x Hx).
    split; lia.
  - intros big Hb la mi (H1 & H2).
    assert (Hv : forall x, In x (v :: vs) -> r_mip big <= r_mip (v_range x) /\ r_mip (v_range x) + r_levels (v_range x) <= r_mip big + r_levels big
                  /\ r_layer big <= r_layer (v_range x) /\ r_layer (v_range x) + r_layers (v_range x) <= r_layer big + r_layers big).
    { intros x Hx. specialize (Hb x Hx). destruct (H x Hx) as (A & B & _ & _).
      destruct (Hb (r_layer (v_range x)) (r_mip (v_range x))) as [P Q]; [split; lia|].
      destruct (Hb (r_layer (v_range x) + r_layers (v_range x) - 1) (r_mip (v_range x) + r_levels (v_range x) - 1)) as [P' Q']; [split; lia|].
      lia. }
    destruct (cov_mip_min _ _ _ _ C eq_refl (r_mip big) (r_mip big + r_levels big)).
    { intros x Hx. specialize (Hv x Hx). lia. }
    destruct (cov_layer_min _ _ _ _ C eq_refl (r_layer big) (r_layer big + r_layers big)).
    { intros x Hx. specialize (Hv x Hx). lia. }
    split; lia.
  - apply (cov_src _ _ _ _ C).
  - destruct (cov_img _ _ _ _ C) as (v0 & r & E0 & -> & _). congruence.
  - destruct (cov_img _ _ _ _ C) as (v0 & r & E0 & _ & -> & _). congruence.
Qed.

(* C29: merging in one dimension covers this dimension. *)
Theorem C29_merged_covers_each_dimension : forall id cube mips layers v vs,
  i_id (v_image v) <> 0 -> (forall x, In x (v :: vs) -> range_ok (v_range x)) ->
  let m := mergeViews id cube (v :: vs) mips layers in
  (mips = true -> forall x, In x (v :: vs) -> mips_within (v_range x) (v_range m)) /\
  (layers = true -> forall x, In x (v :: vs) -> layers_within (v_range x) (v_range m)) /\
  v_source m = v :: vs.
Proof.
  intros id cube mips layers v vs Hi H. destruct (merge_covers id cube mips layers v vs Hi H) as (d & C & E).
  cbv zeta. rewrite E. cbn. split; [apply C|split; [apply C|apply C]].
Qed.

(* C29: the view type becomes an array or cube type as soon as several layers are covered. *)
Theorem C29_merged_type : forall id cube v vs, let m := mergeViews id cube (v :: vs) true true in
  i_id (v_image v) <> 0 -> (forall x, In x (v :: vs) -> range_ok (v_range x)) ->
  1 < r_layers (v_range m) -> v_type m <> VT_1D /\ v_type m <> VT_2D /\
  (v_type v = VT_2D -> v_type m = VT_CUBE -> r_layers (v_range m) = 6 /\ r_layer (v_range m) = 0 /\ cube = true).
Proof.
  intros id cube v vs m Hi H. subst m. destruct (merge_covers id cube true true v vs Hi H) as (d & C & E).
  destruct (cov_img _ _ _ _ C) as (v0 & r & E0 & _ & _ & Ht). injection E0 as <- _.
  rewrite E. cbn. intro Hl. rewrite Ht. unfold promote_type. destruct (N.ltb_spec 1 (r_layers (v_range d))); [|lia].
  destruct (N.eqb_spec (v_type v) VT_1D) as [E1|E1].
  { repeat split; try discriminate; intros X; rewrite X in E1; discriminate. }
  destruct (N.eqb_spec (v_type v) VT_2D) as [E2|E2].
  { destruct cube; cbn [andb]; [|repeat split; try discriminate].
    destruct (N.eqb_spec (r_layers (v_range d) mod 6) 0) as [E3|]; cbn [andb]; [|repeat split; try discriminate].
    destruct (N.eqb_spec (r_layer (v_range d)) 0); cbn [andb]; [|repeat split; try discriminate].
    destruct (N.ltb_spec 6 (r_layers (v_range d))); repeat split; try discriminate; intros; auto.
    pose proof (N.div_mod (r_layers (v_range d)) 6 ltac:(lia)). rewrite E3 in *. lia. }
  destruct (N.eqb_spec (v_type v) VT_CUBE) as [E3|E3].
  { destruct (N.ltb_spec 6 (r_layers (v_range d))); (split; [|split; [|intros X; contradiction]]);
      try discriminate; rewrite E3; discriminate. }
  split; [exact E1|split; [exact E2|intros X; contradiction]].
Qed.

(* C29: the type of the merged view, in all cases. *)
Theorem C29_merged_type_exactly : forall id cube mips layers v vs, let m := mergeViews id cube (v :: vs) mips layers in
  i_id (v_image v) <> 0 -> (forall x, In x (v :: vs) -> range_ok (v_range x)) ->
  let n := r_layers (v_range m) in
  let cubes := cube = true /\ (exists k, n = 6 * k) /\ r_layer (v_range m) = 0 in
  (n <= 1 -> v_type m = v_type v) /\
  (1 < n ->
    (v_type v = VT_1D -> v_type m = VT_1D_ARRAY) /\
    (v_type v = VT_2D -> (cubes -> n = 6 -> v_type m = VT_CUBE) /\ (cubes -> n <> 6 -> v_type m = VT_CUBE_ARRAY) /\ (~ cubes -> v_type m = VT_2D_ARRAY)) /\
    (v_type v = VT_CUBE -> (n <= 6 -> v_type m = VT_CUBE) /\ (6 < n -> v_type m = VT_CUBE_ARRAY)) /\
    (~ In (v_type v) [VT_1D; VT_2D; VT_CUBE] -> v_type m = v_type v)).
Proof.
  intros id cube mips layers v vs m Hi H. subst m. destruct (merge_covers id cube mips layers v vs Hi H) as (d & C & E).
  destruct (cov_img _ _ _ _ C) as (v0 & r & E0 & _ & _ & Ht). injection E0 as <- _. clear C.
  rewrite E. cbn [v_type v_range]. clear E. cbv zeta. generalize (v_range d). intro R. rewrite Ht. unfold promote_type.
  destruct (N.ltb_spec 1 (r_layers R)) as [L|L]; (split; intro L'; [|try lia]); [lia| |reflexivity].
  assert (M6 : (exists k, r_layers R = 6 * k) <-> r_layers R mod 6 = 0).
  { split; [intros [k ->]; rewrite N.mul_comm; apply N.mod_mul; discriminate|]. intro Z. exists (r_layers R / 6). rewrite (N.div_mod (r_layers R) 6) at 1 by discriminate. rewrite Z. lia. }
  split; [intros ->; reflexivity|]. split.
  { intros ->. change (N.eqb VT_2D VT_1D) with false. change (N.eqb VT_2D VT_2D) with true. cbv iota. split; [|split].
    - intros (-> & K & Z) ->. rewrite Z. reflexivity.
    - intros (-> & K & Z) Ne. rewrite Z, (proj1 M6 K). cbn [N.eqb andb]. destruct (N.ltb_spec 6 (r_layers R)); [reflexivity|]. exfalso. apply Ne. destruct K as [k K]. lia.
    - intro Nc. destruct cube; [|reflexivity]. cbn [andb]. destruct (N.eqb_spec (r_layers R mod 6) 0) as [Z|Z]; [|reflexivity]. cbn [andb]. destruct (N.eqb_spec (r_layer R) 0) as [Z0|Z0]; [|reflexivity].
      exfalso. apply Nc. split; [reflexivity|]. split; [apply M6, Z|exact Z0]. }
  split.
  { intros ->. change (N.eqb VT_CUBE VT_1D) with false. change (N.eqb VT_CUBE VT_2D) with false. change (N.eqb VT_CUBE VT_CUBE) with true. cbv iota.
    destruct (N.ltb_spec 6 (r_layers R)); split; intro; try lia; reflexivity. }
  intro Nin. destruct (N.eqb_spec (v_type v) VT_1D) as [X|X]; [exfalso; apply Nin; rewrite X; left; reflexivity|]. destruct (N.eqb_spec (v_type v) VT_2D) as [Y|Y]; [exfalso; apply Nin; rewrite Y; right; left; reflexivity|].
  destruct (N.eqb_spec (v_type v) VT_CUBE) as [Z|Z]; [exfalso; apply Nin; rewrite Z; right; right; left; reflexivity|]. reflexivity.
Qed.
Print Assumptions C29_merged_type_exactly.

(* Without merging a dimension, the sources are not covered. *)
Theorem C29_without_merge_refuted : exists id cube v vs,
  i_id (v_image v) <> 0 /\ (forall x, In x (v :: vs) -> range_ok (v_range x)) /\
  exists x, In x (v :: vs) /\ ~ sub_range (v_range x) (v_range (mergeViews id cube (v :: vs) true false)).
Proof.
  pose (im := {| i_id := 1; i_width := 8; i_height := 8; i_depth := 1; i_levels := 1; i_layers := 2; i_format := 37 |}).
  pose (mk := fun l => mkView 0 im 0 VT_2D 37 {| r_aspect := 1; r_mip := 0; r_levels := 1; r_layer := l; r_layers := 1 |} []).
  exists 3, false, (mk 0), [mk 1]. split; [discriminate|]. split.
  - intros x [E|[E|[]]]; subst x; repeat split.
  - exists (mk 1). split; [right; left; reflexivity|]. intro S. specialize (S 1 0). cbn in S.
    destruct S as [[A B] _]; [split; cbn; lia|]. cbn in *. lia.
Qed.

(* Example for the hypotheses of C29: two mip levels and two layers of one image. *)
Example C29_example :
  let im := {| i_id := 1; i_width := 8; i_height := 8; i_depth := 1; i_levels := 4; i_layers := 6; i_format := 37 |} in
  let mk := fun m l => mkView 0 im 0 VT_2D 37 {| r_aspect := 1; r_mip := m; r_levels := 1; r_layer := l; r_layers := 1 |} [] in
  let views := [mk 1 2; mk 0 4] in
  (forall x, In x views -> range_ok (v_range x)) /\
  v_range (mergeViews 9 true views true true) = {| r_aspect := 1; r_mip := 0; r_levels := 2; r_layer := 2; r_layers := 3 |} /\
  v_type (mergeViews 9 true views true true) = VT_2D_ARRAY.
Proof.
  cbv zeta. split; [|split; reflexivity]. intros x [E|[E|[]]]; subst x; repeat split.
Qed.
