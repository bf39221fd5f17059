(* C30, C31, C32, C55, C56: identifiers and GPU resources. *)
From Coq Require Import Lia ZifyBool ZifyNat ZifyN QArith.
From Verif Require Import Spec_Res Proof_Layout Proof_Res Proof_Res2 Proof_Res3 Proof_Res4.
Local Open Scope N_scope.

(* ------------------------------------------------------------------ C30 *)
(* The n images created get the identifiers 1..n in order, and each keeps its own data. *)
Theorem C30_image_ids : forall ops, N.of_nat (length ops) < 2 ^ 32 ->
  map i_id (got_images (snd (id_run no_ids ops))) = map N.of_nat (seq 1 (length (asked_images ops))) /\
  Forall2 same_image_data (asked_images ops) (got_images (snd (id_run no_ids ops))).
Proof.
  intros ops H. destruct (id_run_spec ops no_ids iinv_new) as (_ & _ & A & B & _); [unfold small; cbn; lia|].
  split; [rewrite A; apply map_ext; intros; reflexivity | exact B].
Qed.
Print Assumptions C30_image_ids.

(* Each view created gets a view of the description asked; two requests get the same identifier exactly when
   they describe the same Vulkan view, and then they get the same view. *)
Theorem C30_view_ids : forall ops, N.of_nat (length ops) < 2 ^ 32 ->
  Forall2 same_description (asked_views ops) (got_views (snd (id_run no_ids ops))) /\
  forall i j v w gi gj, nth_error (asked_views ops) i = Some v -> nth_error (asked_views ops) j = Some w ->
    nth_error (got_views (snd (id_run no_ids ops))) i = Some gi -> nth_error (got_views (snd (id_run no_ids ops))) j = Some gj ->
    (v_id gi = v_id gj <-> same_description v w) /\ (v_id gi = v_id gj -> gi = gj).
Proof.
  intros ops H. split; [|exact (view_ids ops H)].
  destruct (id_run_spec ops no_ids iinv_new) as (_ & _ & _ & _ & A); [unfold small; cbn; lia|].
  revert A. apply Forall2_weaken. intros a b [D _]. exact D.
Qed.
Print Assumptions C30_view_ids.

Theorem C30_view_ids_dense : forall ops, N.of_nat (length ops) < 2 ^ 32 ->
  forall g, In g (got_views (snd (id_run no_ids ops))) -> 1 <= v_id g <= N.of_nat (length (asked_views ops)).
Proof. exact view_ids_range. Qed.
Print Assumptions C30_view_ids_dense.

(* A view merged from other views and a plain view of the same range share one identifier: the second asked
   does not get its own sources. *)
Definition im1 : image := {| i_id := 1; i_width := 8; i_height := 8; i_depth := 1; i_levels := 1; i_layers := 2; i_format := 37 |}.
Definition rg (layer layers : N) : srange := {| r_aspect := 1; r_mip := 0; r_levels := 1; r_layer := layer; r_layers := layers |}.
Definition plain : view := mkView 0 im1 0 VT_2D_ARRAY 37 (rg 0 2) [].
Definition merged : view := mkView 0 im1 0 VT_2D_ARRAY 37 (rg 0 2) [mkView 5 im1 0 VT_2D 37 (rg 0 1) []; mkView 6 im1 0 VT_2D 37 (rg 1 1) []].
Theorem C30_sources_lost_refuted : exists ops g, got_views (snd (id_run no_ids ops)) = [g; g] /\
  exists v w, asked_views ops = [v; w] /\ v_source g <> v_source w.
Proof.
  exists [NewImage im1; NewView plain; NewView merged], (with_view_id plain 1). split; [vm_compute; reflexivity|].
  exists plain, merged. split; [reflexivity | discriminate].
Qed.
Print Assumptions C30_sources_lost_refuted.

(* non vacuity: three images, three views two of which are the same *)
Example C30_case : exists ops, N.of_nat (length ops) < 2 ^ 32 /\
  map i_id (got_images (snd (id_run no_ids ops))) = [1; 2; 3] /\ map v_id (got_views (snd (id_run no_ids ops))) = [1; 2; 1].
Proof.
  exists [NewImage im1; NewView plain; NewImage im1; NewView (mkView 0 im1 0 VT_2D 37 (rg 0 1) []); NewImage im1; NewView plain].
  split; [reflexivity|]. split; vm_compute; reflexivity.
Qed.

(* ------------------------------------------------------------------ C31 *)
(* Over any history of any number of caches and contexts, no object is destroyed twice, and each is destroyed
   after it was created. *)
Theorem C31_destroyed_at_most_once : forall devices hs ops,
  let log := driver_log (res_run devices hs new_rsystem ops) in
  NoDup (created log) /\ NoDup (destroyed log) /\ (forall l1 x l2, log = l1 ++ Destroyed x :: l2 -> In x (created l1)).
Proof.
  intros devices hs ops log. pose proof (in_log _ (si_h _ _ (sinv_run hs devices ops _ (sinv_new hs)))) as L.
  split; [exact (li_nodup _ _ L)|]. split; [exact (li_dnodup _ _ L) | exact (li_causal _ _ L)].
Qed.
Print Assumptions C31_destroyed_at_most_once.

(* Missing: images that were first needed by the creation of a view, and contexts without device (see the refutations). *)
Theorem C31_exactly_once_partial : forall devices hs ops,
  disciplined devices hs new_rsystem ops ->
  let s := res_run devices hs new_rsystem ops in
  sy_caches s = [] ->
  forall x, In x (created (driver_log s)) -> count_occ N.eq_dec (destroyed (driver_log s)) x = 1%nat.
Proof.
  intros devices hs ops D s Hc x Hx.
  destruct (C31_destroyed_at_most_once devices hs ops) as (_ & Hn & _).
  pose proof (no_leak hs devices ops D Hc x Hx) as Hin.
  apply (proj1 (NoDup_count_occ' N.eq_dec _)); assumption.
Qed.
Print Assumptions C31_exactly_once_partial.

Definition hs0 : hashes := {| std_hash_enum := fun x => x; std_hash_float := fun x => x |}.
Definition d0 : sampler_desc := {| sd_mag := 0; sd_min := 0; sd_mip := 0; sd_u := 2; sd_v := 2; sd_w := 2; sd_bias := 1; sd_minLod := 1; sd_maxLod := 1 |}.
Definition q0 : quad_config := {| qc_texCoords := true; qc_invertU := false; qc_invertV := false |}.
Definition all_devices : N -> bool := fun _ => true.
(* non vacuity: two caches, an image and two views of it, a destruction, a sampler, a quad *)
Definition history0 : list res_op :=
  [RCreateImage 1 1 10; RCreateView 1 1 20 10; RCreateView 2 1 21 10; RCreateSampler 1 1 d0; RCreateSampler 1 1 d0; RCreateQuad 2 1 q0;
   RDestroyViewAny 1 [1] 20; RDestroyCache 1; RDestroyCache 2].
Example C31_case : disciplined all_devices hs0 new_rsystem history0 /\
  sy_caches (res_run all_devices hs0 new_rsystem history0) = [] /\
  length (created (driver_log (res_run all_devices hs0 new_rsystem history0))) = 7%nat.
Proof.
  split; [|split; vm_compute; reflexivity].
  unfold history0. cbn [disciplined op_disciplined]. repeat match goal with |- _ /\ _ => split end; try exact I; try reflexivity.
  - left. exists 1. split; [vm_compute; left; reflexivity|]. split; [vm_compute; left; reflexivity | vm_compute; tauto].
  - left. exists 1. split; [vm_compute; left; reflexivity|]. split; [vm_compute; left; reflexivity | vm_compute; tauto].
Qed.

(* An image whose first use is the creation of a view of it is never destroyed. *)
Theorem C31_view_first_leak_refuted : forall hs, exists ops,
  sy_caches (res_run all_devices hs new_rsystem ops) = [] /\
  exists img x, In (Created (OImage img) x) (driver_log (res_run all_devices hs new_rsystem ops)) /\
                ~ In x (destroyed (driver_log (res_run all_devices hs new_rsystem ops))).
Proof.
  intros hs. exists [RCreateView 1 1 20 10; RCreateImage 1 1 10; RDestroyCache 1]. split; [vm_compute; reflexivity|].
  exists 10, 1. split; [vm_compute; left; reflexivity|]. vm_compute. intros [H | H]; [discriminate | exact H].
Qed.
Print Assumptions C31_view_first_leak_refuted.

(* A cache whose image was destroyed on request still destroys, when it goes away, the image of the same id
   that another, living, cache created since. *)
Theorem C31_destroyed_by_other_cache_refuted : forall hs, exists before img x,
  snd (res_step all_devices hs (res_run all_devices hs new_rsystem before) (RCreateImage 2 1 img)) = x /\
  let s := fst (res_step all_devices hs (res_run all_devices hs new_rsystem before) (RCreateImage 2 1 img)) in
  alive s x /\ ~ In x (created (driver_log (res_run all_devices hs new_rsystem before))) /\
  In x (destroyed (driver_log (fst (res_step all_devices hs s (RDestroyCache 1))))).
Proof.
  intros hs. exists [RCreateImage 1 1 10; RDestroyImage 1 1 10], 10, 3. split; [vm_compute; reflexivity|]. cbv zeta.
  split; [split; [vm_compute; tauto | vm_compute; intros [H | [H | H]]; [discriminate | discriminate | exact H]]|].
  split; [vm_compute; intros [H | [H | H]]; [discriminate | discriminate | exact H] | vm_compute; tauto].
Qed.
Print Assumptions C31_destroyed_by_other_cache_refuted.

(* ------------------------------------------------------------------ C32 *)
(* The same description, asked again to a living cache after any history, gives the same sampler, still alive. *)
Theorem C32_same_sampler : forall devices hs ops rc cx d ops',
  keeps_cache rc ops' ->
  let s := res_run devices hs new_rsystem ops in
  let s1 := fst (res_step devices hs s (RCreateSampler rc cx d)) in
  let s2 := res_run devices hs s1 ops' in
  snd (res_step devices hs s2 (RCreateSampler rc cx d)) = snd (res_step devices hs s (RCreateSampler rc cx d)) /\
  alive s2 (snd (res_step devices hs s (RCreateSampler rc cx d))).
Proof.
  intros devices hs ops rc cx d ops' K s s1 s2.
  pose proof (sampler_request hs devices s rc cx d) as H1.
  pose proof (keep_run cc_samplers hs devices (rc, cx) (samplerHash hs d) _ (or_introl eq_refl) ops' s1 K H1) as H2.
  split; [exact (sampler_again hs devices s2 rc cx d _ H2)|].
  assert (E : s2 = res_run devices hs new_rsystem ((ops ++ [RCreateSampler rc cx d]) ++ ops')).
  { unfold s2, s1, s. rewrite run_app, run_snoc. reflexivity. }
  fold s2 in H2. rewrite E in H2 |- *. destruct (known_sampler _ _ _ _ _ _ H2) as (d' & _ & H & _). exact H.
Qed.
Print Assumptions C32_same_sampler.

(* The sampler obtained was created with a description of the same hash; with the requested description when the
   hash tells apart the descriptions requested. Missing: an injective key (see the refutation). *)
Theorem C32_requested_description_partial : forall devices hs ops rc cx d,
  let history := ops ++ [RCreateSampler rc cx d] in
  (forall rc1 cx1 d1, In (RCreateSampler rc1 cx1 d1) history -> samplerHash hs d1 = samplerHash hs d -> d1 = d) ->
  let x := snd (res_step devices hs (res_run devices hs new_rsystem ops) (RCreateSampler rc cx d)) in
  let s := res_run devices hs new_rsystem history in
  In (Created (OSampler d) x) (driver_log s) /\ alive s x.
Proof.
  intros devices hs ops rc cx d history Hinj x s.
  pose proof (sampler_request hs devices (res_run devices hs new_rsystem ops) rc cx d) as H1. rewrite <- run_snoc in H1. fold history in H1.
  destruct (known_sampler _ _ _ _ _ _ H1) as (d' & A & B & C). fold s x in A, B.
  assert (E : d' = d).
  { destruct (run_only hs devices d' x history new_rsystem A) as [[] | (rc1 & cx1 & Hin)]. exact (Hinj _ _ _ Hin C). }
  subst d'. split; assumption.
Qed.
Print Assumptions C32_requested_description_partial.

(* Descriptions that differ by their last field only are always told apart, when std::hash is injective. *)
Theorem C32_maxLod_partial : forall hs d d',
  (forall a, std_hash_enum hs a < 2 ^ 64) -> (forall a, std_hash_float hs a < 2 ^ 64) ->
  (forall a b, std_hash_float hs a = std_hash_float hs b -> a = b) ->
  sd_mag d = sd_mag d' -> sd_min d = sd_min d' -> sd_mip d = sd_mip d' -> sd_u d = sd_u d' -> sd_v d = sd_v d' -> sd_w d = sd_w d' ->
  sd_bias d = sd_bias d' -> sd_minLod d = sd_minLod d' -> samplerHash hs d = samplerHash hs d' -> d = d'.
Proof.
  intros hs d d' He Hf Hi E1 E2 E3 E4 E5 E6 E7 E8 H. rewrite !samplerHash_last in H.
  assert (P : prefixHash hs d = prefixHash hs d') by (unfold prefixHash, prefixList; rewrite E1, E2, E3, E4, E5, E6, E7, E8; reflexivity).
  rewrite P in H. apply hashCombine_inj in H; [|apply prefixHash_lt | apply Hf | apply Hf]. apply Hi in H.
  clear He Hf Hi. apply desc_ext; assumption.
Qed.
Print Assumptions C32_maxLod_partial.

(* Whatever std::hash is, two different descriptions (with positive finite floats) share a hash, and a cache asked for both
   returns for the second the sampler created with the first. *)
Theorem C32_collision_refuted : forall devices hs, exists d d', d <> d' /\
  finite_float (sd_bias d) /\ finite_float (sd_minLod d) /\ finite_float (sd_maxLod d) /\
  finite_float (sd_bias d') /\ finite_float (sd_minLod d') /\ finite_float (sd_maxLod d') /\
  let s := fst (res_step devices hs new_rsystem (RCreateSampler 1 1 d)) in
  let x := snd (res_step devices hs s (RCreateSampler 1 1 d')) in
  driver_log (fst (res_step devices hs s (RCreateSampler 1 1 d'))) = [Created (OSampler d) x].
Proof.
  intros devices hs. destruct (collision hs) as (d & d' & Hd & E & F). exists d, d'. split; [exact Hd|].
  destruct F as (F1 & F2 & F3 & F4 & F5 & F6). do 6 (split; [assumption|]). cbv zeta.
  pose proof (sampler_request hs devices new_rsystem 1 1 d) as H. rewrite E in H.
  pose proof (sampler_again hs devices _ 1 1 d' _ H) as H2. rewrite H2.
  rewrite (sampler_hit hs devices _ 1 1 d' _ H). destruct (sampler_first hs devices 1 1 d) as [F7 F8]. rewrite F7, F8. reflexivity.
Qed.
Print Assumptions C32_collision_refuted.

(* non vacuity: two descriptions told apart, each getting its own sampler *)
Definition d1 : sampler_desc := {| sd_mag := 1; sd_min := 0; sd_mip := 0; sd_u := 2; sd_v := 2; sd_w := 2; sd_bias := 1; sd_minLod := 1; sd_maxLod := 1 |}.
Example C32_case : keeps_cache 1 [RCreateSampler 1 1 d1; RDestroyCache 2] /\
  samplerHash hs0 d0 <> samplerHash hs0 d1 /\
  snd (res_step all_devices hs0 (res_run all_devices hs0 new_rsystem [RCreateSampler 1 1 d0]) (RCreateSampler 1 1 d1)) = 2.
Proof.
  split; [repeat constructor; discriminate|]. split; [vm_compute; discriminate | vm_compute; reflexivity].
Qed.

(* ------------------------------------------------------------------ C55 *)
(* The vertex buffer given for a configuration was filled for exactly that configuration, is given again for it as
   long as the cache lives, and is alive. *)
Theorem C55_quad_sharing : forall devices hs ops rc cx q ops',
  keeps_cache rc ops' ->
  let s := res_run devices hs new_rsystem ops in
  let x := snd (res_step devices hs s (RCreateQuad rc cx q)) in
  let s2 := res_run devices hs (fst (res_step devices hs s (RCreateQuad rc cx q))) ops' in
  In (Created (OQuad q) x) (driver_log s2) /\ alive s2 x /\ snd (res_step devices hs s2 (RCreateQuad rc cx q)) = x.
Proof.
  intros devices hs ops rc cx q ops' K s x s2.
  pose proof (quad_request hs devices s rc cx q) as H1.
  pose proof (keep_run cc_buffers hs devices (rc, cx) (quadHash q) _ (or_intror eq_refl) ops' _ K H1) as H2. fold s2 x in H2.
  assert (E : s2 = res_run devices hs new_rsystem ((ops ++ [RCreateQuad rc cx q]) ++ ops')).
  { unfold s2, s. rewrite run_app, run_snoc. reflexivity. }
  rewrite E in H2. destruct (known_quad _ _ _ _ _ _ H2) as (q' & A & B & C). apply quadHash_inj in C. subst q'.
  rewrite <- E in A, B, H2. split; [exact A|]. split; [exact B|]. exact (quad_again hs devices s2 rc cx q x H2).
Qed.
Print Assumptions C55_quad_sharing.
Example C55_case : keeps_cache 1 [RCreateQuad 1 1 {| qc_texCoords := true; qc_invertU := true; qc_invertV := false |}; RCreateQuad 1 2 q0; RDestroyCache 2] /\
  snd (res_step all_devices hs0 new_rsystem (RCreateQuad 1 1 q0)) = 1.
Proof. split; [repeat constructor; discriminate | vm_compute; reflexivity]. Qed.

(* ------------------------------------------------------------------ C56 *)
(* Without inversion the texture coordinates over the screen are those of the unit square. *)
Lemma affine_unique a b c (f : Q -> Q -> Q) : (forall x y, (f x y == a * x + b * y + c)%Q) ->
  forall u0 u1 u2, (f (-1#1) (-3#1) == u0)%Q -> (f (-1#1) 1 == u1)%Q -> (f (3#1) 1 == u2)%Q ->
  forall x y, (f x y == u1 + (x + 1) * (u2 - u1) / 4 + (y - 1) * (u1 - u0) / 4)%Q.
Proof.
  intros H u0 u1 u2 H0 H1 H2 x y. rewrite H in *. rewrite <- H0, <- H1, <- H2. field.
Qed.
Theorem C56_quad_coordinates_partial : forall q f, interpolates (quadVertices q) f ->
  forall x y, (qc_invertU q = false -> fst (f x y) == expected_u q x)%Q /\ (qc_invertV q = false -> snd (f x y) == expected_v q y)%Q.
Proof.
  intros q f [(a & b & c & d & e & g & Ha) Hv] x y. unfold quadVertices in Hv.
  inversion Hv as [|v0 l0 [A0 B0] Hv1]; subst. inversion Hv1 as [|v1 l1 [A1 B1] Hv2]; subst. inversion Hv2 as [|v2 l2 [A2 B2] _]; subst.
  cbn [fst snd] in *. split; intros E; rewrite E in *; cbn in *.
  - rewrite (affine_unique a b c (fun x y => fst (f x y)) (fun x y => proj1 (Ha x y)) _ _ _ A0 A1 A2 x y).
    unfold expected_u, inject_Z. rewrite E. field.
  - rewrite (affine_unique d e g (fun x y => snd (f x y)) (fun x y => proj2 (Ha x y)) _ _ _ B0 B1 B2 x y).
    unfold expected_v, inject_Z. rewrite E. field.
Qed.
Print Assumptions C56_quad_coordinates_partial.

(* With an inversion they are those of the mirrored square moved by one texture: right with a repeating sampler only. *)
Theorem C56_inverted_coordinates_refuted : forall q f, interpolates (quadVertices q) f ->
  forall x y, (qc_invertU q = true -> fst (f x y) == expected_u q x + 1)%Q /\ (qc_invertV q = true -> snd (f x y) == expected_v q y - 1)%Q.
Proof.
  intros q f [(a & b & c & d & e & g & Ha) Hv] x y. unfold quadVertices in Hv.
  inversion Hv as [|v0 l0 [A0 B0] Hv1]; subst. inversion Hv1 as [|v1 l1 [A1 B1] Hv2]; subst. inversion Hv2 as [|v2 l2 [A2 B2] _]; subst.
  cbn [fst snd] in *. split; intros E; rewrite E in *; cbn in *.
  - rewrite (affine_unique a b c (fun x y => fst (f x y)) (fun x y => proj1 (Ha x y)) _ _ _ A0 A1 A2 x y).
    unfold expected_u, inject_Z. rewrite E. field.
  - rewrite (affine_unique d e g (fun x y => snd (f x y)) (fun x y => proj2 (Ha x y)) _ _ _ B0 B1 B2 x y).
    unfold expected_v, inject_Z. rewrite E. field.
Qed.
Print Assumptions C56_inverted_coordinates_refuted.
Example C56_case : interpolates (quadVertices q0) (fun x y => ((x + 1) / 2, (y + 1) / 2)%Q).
Proof.
  split.
  - exists (1#2)%Q, 0%Q, (1#2)%Q, 0%Q, (1#2)%Q, (1#2)%Q. intros x y. cbn. split; field.
  - repeat constructor; cbn; reflexivity.
Qed.
Example C56_inverted_case : interpolates (quadVertices {| qc_texCoords := true; qc_invertU := true; qc_invertV := true |})
  (fun x y => (2 - (x + 1) / 2, 0 - (y + 1) / 2)%Q).
Proof.
  split.
  - exists (-1#2)%Q, 0%Q, (3#2)%Q, 0%Q, (-1#2)%Q, (-1#2)%Q. intros x y. cbn. split; field.
  - repeat constructor; cbn; reflexivity.
Qed.
