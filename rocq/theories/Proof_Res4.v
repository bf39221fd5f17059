(* Identifiers (C30), sampler and quad sharing (C32, C55), hash collisions. *)
From Coq Require Import Lia ZifyBool ZifyNat ZifyN FinFun.
From Verif Require Import Spec_Res Proof_Layout Proof_Res Proof_Res2 Proof_Res3.
Local Open Scope N_scope.

(* ------------------------------------------------------------------ identifiers *)
Lemma same_description_refl a : same_description a a.
Proof. repeat split. Qed.
Lemma same_description_sym a b : same_description a b -> same_description b a.
Proof. intros (A & B & C & D & E). repeat split; symmetry; assumption. Qed.
Lemma same_description_trans a b c : same_description a b -> same_description b c -> same_description a c.
Proof.
  intros (A & B & C & D & E) (A' & B' & C' & D' & E').
  repeat split; [rewrite A | rewrite B | rewrite C | rewrite D | rewrite E]; assumption.
Qed.
Lemma view_data_eqb_spec a b : view_data_eqb a b = true <-> same_description a b.
Proof.
  unfold view_data_eqb, srange_eqb, same_description. rewrite !Bool.andb_true_iff, !N.eqb_eq. split.
  - intros (A & B & C & D & E & F & G & H & I). repeat split; try assumption. destruct (v_range a), (v_range b); cbn in *; congruence.
  - intros (A & B & C & D & E). rewrite E. repeat split; assumption.
Qed.

Lemma length_mput_new {V} k (v : V) m : mfind k m = None -> length (mput k v m) = S (length m).
Proof.
  induction m as [|[k' v'] r IH]; [reflexivity|]. cbn. destruct (N.eqb k k'); [discriminate|]. intros H.
  destruct (N.ltb k k'); cbn; [reflexivity | rewrite (IH H); reflexivity].
Qed.
Lemma nodup_mput_new {V} k (v : V) m : mfind k m = None -> NoDup (map fst m) -> NoDup (map fst (mput k v m)).
Proof.
  induction m as [|[k' v'] r IH]; cbn; [intros _ _; constructor; [intros [] | constructor]|].
  destruct (N.eqb_spec k k') as [|Hk]; [discriminate|]. intros H Hn. apply NoDup_cons_iff in Hn as [H1 H2].
  destruct (N.ltb k k'); cbn.
  - constructor; [|constructor; assumption]. intros [E | Hin]; [congruence|].
    apply in_map_iff in Hin as ([a b] & E & Hin). cbn in E. subst a. exact (mfind_none_in _ _ H _ Hin).
  - constructor; [|exact (IH H H2)]. intros Hin. apply mput_keys in Hin as [E | Hin]; [congruence | exact (H1 Hin)].
Qed.

Record iinv (m : idmaps) : Prop := {
  ii_img : forall k, mfind k (im_images m) <> None <-> 1 <= k <= N.of_nat (msize (im_images m));
  ii_keys : NoDup (map fst (im_views m));
  ii_id : forall k v, In (k, v) (im_views m) -> v_id v = k /\ 1 <= k <= N.of_nat (msize (im_views m));
  ii_distinct : forall e e', In e (im_views m) -> In e' (im_views m) -> same_description (snd e) (snd e') -> e = e' }.
Lemma iinv_new : iinv no_ids.
Proof.
  split; cbn; try contradiction.
  - intros k. split; [intros H; contradiction H; reflexivity | lia].
  - constructor.
Qed.

Definition small (m : idmaps) (n : nat) : Prop := N.of_nat (msize (im_images m) + n) < 2 ^ 32 /\ N.of_nat (msize (im_views m) + n) < 2 ^ 32.

Lemma image_step m img : iinv m -> small m 1 ->
  iinv (fst (createImageId m img)) /\ msize (im_images (fst (createImageId m img))) = S (msize (im_images m)) /\
  im_views (fst (createImageId m img)) = im_views m /\
  i_id (snd (createImageId m img)) = N.of_nat (msize (im_images m)) + 1 /\ same_image_data img (snd (createImageId m img)).
Proof.
  intros [I K D E] [S1 S2]. unfold createImageId. cbn [fst snd im_images im_views].
  assert (Eu : u32 (N.of_nat (msize (im_images m)) + 1) = N.of_nat (msize (im_images m)) + 1).
  { unfold u32. apply N.mod_small. unfold msize in *. lia. }
  rewrite Eu. set (i := N.of_nat (msize (im_images m)) + 1) in *.
  assert (Hnone : mfind i (im_images m) = None).
  { destruct (mfind i (im_images m)) eqn:F; [|reflexivity]. exfalso. assert (H : mfind i (im_images m) <> None) by congruence. apply I in H. lia. }
  assert (Hm : minsert i (with_image_id img i) (im_images m) = mput i (with_image_id img i) (im_images m)) by (unfold minsert; rewrite Hnone; reflexivity).
  assert (Hs : msize (minsert i (with_image_id img i) (im_images m)) = S (msize (im_images m))) by (rewrite Hm; apply length_mput_new, Hnone).
  split; [|split; [exact Hs | split; [reflexivity | split; [reflexivity | repeat split]]]].
  split; cbn [im_images im_views]; try assumption. intros k. rewrite Hs, Hm, mfind_mput. destruct (N.eqb_spec k i) as [->|].
  - split; [intros _; unfold i; lia | intros _ ?; discriminate].
  - rewrite I. unfold i in *. lia.
Qed.

Lemma view_step m v : iinv m -> small m 1 ->
  iinv (fst (createViewId m v)) /\ im_images (fst (createViewId m v)) = im_images m /\
  (msize (im_views (fst (createViewId m v))) <= S (msize (im_views m)))%nat /\
  (forall e, In e (im_views m) -> In e (im_views (fst (createViewId m v)))) /\
  In (v_id (snd (createViewId m v)), snd (createViewId m v)) (im_views (fst (createViewId m v))) /\
  same_description v (snd (createViewId m v)).
Proof.
  intros [I K D E] [S1 S2]. unfold createViewId.
  destruct (find (fun e => view_data_eqb (snd e) v) (im_views m)) as [[k w]|] eqn:F; cbn [fst snd im_images im_views].
  - apply find_some in F as [F1 F2]. cbn in F2. apply view_data_eqb_spec in F2. destruct (D _ _ F1) as [<- Hk].
    split; [split; assumption|]. split; [reflexivity|]. split; [lia|]. split; [intros e H; exact H|]. split; [exact F1|].
    apply same_description_sym. exact F2.
  - assert (Eu : u32 (N.of_nat (msize (im_views m)) + 1) = N.of_nat (msize (im_views m)) + 1).
    { unfold u32. apply N.mod_small. unfold msize in *. lia. }
    rewrite Eu. set (i := N.of_nat (msize (im_views m)) + 1) in *.
    assert (Hnone : mfind i (im_views m) = None).
    { destruct (mfind i (im_views m)) eqn:G; [|reflexivity]. exfalso. apply mfind_in in G. apply D in G. lia. }
    assert (Hm : minsert i (with_view_id v i) (im_views m) = mput i (with_view_id v i) (im_views m)) by (unfold minsert; rewrite Hnone; reflexivity).
    rewrite Hm.
    assert (Hs : msize (mput i (with_view_id v i) (im_views m)) = S (msize (im_views m))) by (apply length_mput_new, Hnone).
    assert (Hin : forall e, In e (mput i (with_view_id v i) (im_views m)) <-> e = (i, with_view_id v i) \/ In e (im_views m))
      by (intros e; apply in_mput_new, Hnone).
    assert (Hnew : forall e, In e (im_views m) -> ~ same_description (snd e) v).
    { intros e He Hd. apply view_data_eqb_spec in Hd. pose proof (find_none _ _ F _ He) as H. cbn in H. congruence. }
    split; [split; cbn [im_images im_views]|].
    + exact I.
    + apply nodup_mput_new; assumption.
    + intros k w H. rewrite Hs. apply Hin in H as [[= -> ->] | H]; [split; [reflexivity | unfold i; lia]|].
      apply D in H as [H1 H2]. split; [exact H1 | lia].
    + intros e e' H H' Hd. apply Hin in H as [-> | H]; apply Hin in H' as [-> | H'].
      * reflexivity.
      * exfalso. apply (Hnew _ H'). apply same_description_sym in Hd. exact Hd.
      * exfalso. exact (Hnew _ H Hd).
      * exact (E _ _ H H' Hd).
    + split; [reflexivity|]. split; [rewrite Hs; lia|]. split; [intros e H; apply Hin; right; exact H|].
      split; [apply Hin; left; reflexivity | repeat split].
Qed.

Lemma id_run_spec : forall ops m, iinv m -> small m (length ops) ->
  let r := id_run m ops in
  iinv (fst r) /\ (forall e, In e (im_views m) -> In e (im_views (fst r))) /\
  map i_id (got_images (snd r)) = map (fun j => N.of_nat (msize (im_images m)) + N.of_nat j) (seq 1 (length (asked_images ops))) /\
  Forall2 same_image_data (asked_images ops) (got_images (snd r)) /\
  Forall2 (fun v g => same_description v g /\ In (v_id g, g) (im_views (fst r))) (asked_views ops) (got_views (snd r)).
Proof.
  induction ops as [|o ops IH]; intros m I Hs.
  - cbn. split; [exact I|]. split; [intros e H; exact H|]. split; [reflexivity|]. split; constructor.
  - assert (S1 : small m 1) by (unfold small in *; cbn [length] in Hs; lia).
    destruct o as [img | v].
    + destruct (image_step m img I S1) as (I1 & Hn & Hv & Hi & Hd). cbn [id_run id_step].
      destruct (createImageId m img) as [m1 x] eqn:Ec. cbn [fst snd] in *.
      assert (S2 : small m1 (length ops)). { unfold small in *. cbn [length] in Hs. rewrite Hn, Hv. lia. }
      specialize (IH m1 I1 S2). destruct (id_run m1 ops) as [m2 xs]. cbn [fst snd] in *.
      destruct IH as (J1 & J2 & J3 & J4 & J5). split; [exact J1|]. split; [intros e He; apply J2; rewrite Hv; exact He|].
      cbn [got_images asked_images flat_map app map length seq got_views asked_views]. split; [|split; [|exact J5]].
      * cbn [map]. f_equal; [rewrite Hi; cbn; lia|]. unfold got_images in J3. rewrite J3, Hn. rewrite <- (seq_shift _ 1), map_map. apply map_ext. intros a. lia.
      * constructor; [exact Hd | exact J4].
    + destruct (view_step m v I S1) as (I1 & Hn & Hl & Hk & Hin & Hd). cbn [id_run id_step].
      destruct (createViewId m v) as [m1 x] eqn:Ec. cbn [fst snd] in *.
      assert (S2 : small m1 (length ops)). { unfold small in *. cbn [length] in Hs. rewrite Hn. lia. }
      specialize (IH m1 I1 S2). destruct (id_run m1 ops) as [m2 xs]. cbn [fst snd] in *.
      destruct IH as (J1 & J2 & J3 & J4 & J5). split; [exact J1|]. split; [intros e He; apply J2, Hk, He|].
      cbn [got_images asked_images flat_map app map length seq got_views asked_views]. split; [|split; [exact J4|]].
      * unfold got_images in J3. rewrite J3, Hn. reflexivity.
      * constructor; [split; [exact Hd | apply J2, Hin] | exact J5].
Qed.

Lemma Forall2_nth {A B} (R : A -> B -> Prop) l l' : Forall2 R l l' -> forall i a b, nth_error l i = Some a -> nth_error l' i = Some b -> R a b.
Proof.
  intros HF. induction HF as [|x y l l' H HF IH]; intros i a b Ha Hb; destruct i as [|i]; cbn in *; try discriminate.
  - congruence.
  - exact (IH _ _ _ Ha Hb).
Qed.
Lemma Forall2_weaken {A B} (R S : A -> B -> Prop) l l' : (forall a b, R a b -> S a b) -> Forall2 R l l' -> Forall2 S l l'.
Proof. intros H. induction 1; constructor; auto. Qed.
Lemma nodup_fst {A B} (l : list (A * B)) a b b' : NoDup (map fst l) -> In (a, b) l -> In (a, b') l -> b = b'.
Proof.
  induction l as [|[x y] r IH]; [intros _ []|]. cbn. intros Hn H H'. apply NoDup_cons_iff in Hn as [H1 H2].
  destruct H as [E | H], H' as [E' | H'].
  - congruence.
  - exfalso. apply H1. apply (in_map fst) in H'. inversion E; subst. exact H'.
  - exfalso. apply H1. apply (in_map fst) in H. inversion E'; subst. exact H.
  - exact (IH H2 H H').
Qed.
Lemma view_ids ops : N.of_nat (length ops) < 2 ^ 32 ->
  forall i j v w gi gj, nth_error (asked_views ops) i = Some v -> nth_error (asked_views ops) j = Some w ->
  nth_error (got_views (snd (id_run no_ids ops))) i = Some gi -> nth_error (got_views (snd (id_run no_ids ops))) j = Some gj ->
  (v_id gi = v_id gj <-> same_description v w) /\ (v_id gi = v_id gj -> gi = gj).
Proof.
  intros Hl i j v w gi gj Hv Hw Hi Hj.
  assert (S0 : small no_ids (length ops)) by (unfold small; cbn; lia).
  destruct (id_run_spec ops no_ids iinv_new S0) as (J1 & _ & _ & _ & J5).
  destruct (Forall2_nth _ _ _ J5 _ _ _ Hv Hi) as [Dv Iv]. destruct (Forall2_nth _ _ _ J5 _ _ _ Hw Hj) as [Dw Iw].
  assert (Heq : v_id gi = v_id gj -> gi = gj).
  { intros E. rewrite E in Iv. exact (nodup_fst _ _ _ _ (ii_keys _ J1) Iv Iw). }
  split; [|exact Heq]. split.
  - intros E. apply Heq in E. subst gj. exact (same_description_trans _ _ _ Dv (same_description_sym _ _ Dw)).
  - intros Hd. assert (E : (v_id gi, gi) = (v_id gj, gj)).
    { apply (ii_distinct _ J1 _ _ Iv Iw). cbn. exact (same_description_trans _ _ _ (same_description_sym _ _ Dv) (same_description_trans _ _ _ Hd Dw)). }
    congruence.
Qed.
Lemma view_ids_range ops : N.of_nat (length ops) < 2 ^ 32 -> forall g, In g (got_views (snd (id_run no_ids ops))) ->
  1 <= v_id g <= N.of_nat (length (asked_views ops)).
Proof.
  intros Hl g Hg. assert (S0 : small no_ids (length ops)) by (unfold small; cbn; lia).
  destruct (id_run_spec ops no_ids iinv_new S0) as (J1 & _ & _ & _ & J5).
  assert (Hin : In (v_id g, g) (im_views (fst (id_run no_ids ops)))).
  { revert Hg. clear - J5. induction J5 as [|a b l l' [_ H] _ IH]; [intros []|]. intros [<- | Hg]; [exact H | exact (IH Hg)]. }
  apply (ii_id _ J1) in Hin as [_ H]. split; [lia|].
  assert (Hb : forall ops m, iinv m -> small m (length ops) -> (msize (im_views (fst (id_run m ops))) <= msize (im_views m) + length (asked_views ops))%nat).
  { clear. induction ops as [|o ops IH]; intros m I Hs; [cbn; lia|].
    assert (S1 : small m 1) by (unfold small in *; cbn [length] in Hs; lia). destruct o as [img | v]; cbn [id_run id_step].
    - destruct (image_step m img I S1) as (I1 & Hn & Hv & _). destruct (createImageId m img) as [m1 x]. cbn [fst snd] in *.
      assert (S2 : small m1 (length ops)). { unfold small in *. cbn [length] in Hs. rewrite Hn, Hv. lia. }
      specialize (IH m1 I1 S2). destruct (id_run m1 ops) as [m2 xs]. cbn [fst asked_views flat_map app] in *. rewrite Hv in IH. exact IH.
    - destruct (view_step m v I S1) as (I1 & Hn & Hk & _). destruct (createViewId m v) as [m1 x]. cbn [fst snd] in *.
      assert (S2 : small m1 (length ops)). { unfold small in *. cbn [length] in Hs. rewrite Hn. lia. }
      specialize (IH m1 I1 S2). destruct (id_run m1 ops) as [m2 xs]. cbn [fst asked_views flat_map app length] in *. unfold asked_views in IH. lia. }
  specialize (Hb ops no_ids iinv_new S0). cbn in Hb. lia.
Qed.

(* ------------------------------------------------------------------ sharing *)
Lemma get_put_same k c l : get_cache k (put_cache k c l) = c.
Proof.
  induction l as [|[k' c'] r IH]; cbn; [destruct (ckey_eqb_spec k k); congruence|].
  destruct (ckey_eqb_spec k k') as [->|Hk]; cbn; [destruct (ckey_eqb_spec k' k'); congruence|].
  destruct (ckey_eqb_spec k k'); [congruence | exact IH].
Qed.
Lemma get_put_other k k' c l : k' <> k -> get_cache k' (put_cache k c l) = get_cache k' l.
Proof.
  intros H. induction l as [|[k0 c0] r IH]; cbn; [destruct (ckey_eqb_spec k' k); congruence|].
  destruct (ckey_eqb_spec k k0) as [->|Hk]; cbn.
  - destruct (ckey_eqb_spec k' k0); congruence.
  - destruct (ckey_eqb_spec k' k0); [reflexivity | exact IH].
Qed.
Lemma get_filter k rc l : fst k <> rc -> get_cache k (filter (fun e => negb (N.eqb (fst (fst e)) rc)) l) = get_cache k l.
Proof.
  intros H. induction l as [|[k0 c0] r IH]; [reflexivity|]. cbn. destruct (N.eqb_spec (fst k0) rc) as [E|E]; cbn.
  - destruct (ckey_eqb_spec k k0) as [->|]; [contradiction | exact IH].
  - destruct (ckey_eqb_spec k k0); [reflexivity | exact IH].
Qed.

(* what a cache knows is kept *)
Lemma keep_step (f : ccache -> nmap N) hs devices s o k a x :
  (f = cc_samplers \/ f = cc_buffers) -> o <> RDestroyCache (fst k) ->
  mfind a (f (get_cache k (sy_caches s))) = Some x ->
  mfind a (f (get_cache k (sy_caches (fst (res_step devices hs s o))))) = Some x.
Proof.
  intros Hf Ho H.
  assert (P : forall k' c, (k' = k -> mfind a (f c) = Some x) -> mfind a (f (get_cache k (put_cache k' c (sy_caches s)))) = Some x).
  { intros k' c Hc. destruct (ckey_eqb_spec k' k) as [->|Hk]; [rewrite get_put_same; apply Hc; reflexivity|].
    rewrite get_put_other by congruence. exact H. }
  destruct o; cbn.
  - unfold cc_createImage. destruct (rh_createImage _ _ _) as [h1 [vk cr]]. cbn. apply P. intros ->. destruct Hf as [-> | ->], cr; exact H.
  - unfold cc_createImageView. destruct (rh_createImageView _ _ _ _) as [h1 [vk cr]]. cbn. apply P. intros ->. destruct Hf as [-> | ->], cr; exact H.
  - destruct (cc_destroyImage _ _ _). cbn. apply P. intros ->. exact H.
  - destruct (cc_destroyImageView _ _ _). cbn. apply P. intros ->. exact H.
  - destruct (destroy_any _ _ _ _ _). exact H.
  - destruct (destroy_any _ _ _ _ _). exact H.
  - unfold cc_createSampler. destruct (mfind (samplerHash hs d) _) as [y|] eqn:F.
    + cbn. apply P. intros ->. exact H.
    + destruct (rh_createSampler _ _) as [h1 y]. cbn. apply P. intros E. destruct Hf as [-> | ->]; cbn; [|rewrite <- E in H; exact H].
      rewrite E in *. rewrite mfind_mput. destruct (N.eqb_spec a (samplerHash hs d)) as [->|]; [congruence | exact H].
  - unfold cc_createQuad. destruct (mfind (quadHash q) _) as [y|] eqn:F.
    + cbn. apply P. intros ->. exact H.
    + destruct (rh_createQuad _ _ _) as [h1 y]. cbn. apply P. intros E. destruct Hf as [-> | ->]; cbn; [rewrite <- E in H; exact H|].
      rewrite E in *. rewrite mfind_mput. destruct (N.eqb_spec a (quadHash q)) as [->|]; [congruence | exact H].
  - rewrite get_filter; [exact H|]. intros E. apply Ho. f_equal. symmetry. exact E.
Qed.
Lemma keep_run (f : ccache -> nmap N) hs devices k a x : (f = cc_samplers \/ f = cc_buffers) -> forall ops s,
  keeps_cache (fst k) ops ->
  mfind a (f (get_cache k (sy_caches s))) = Some x ->
  mfind a (f (get_cache k (sy_caches (res_run devices hs s ops)))) = Some x.
Proof.
  intros Hf. unfold res_run. induction ops as [|o r IH]; intros s K H; [exact H|]. cbn. inversion K; subst.
  apply IH; [assumption|]. apply keep_step; assumption.
Qed.

Lemma sampler_request hs devices s rc cx d :
  mfind (samplerHash hs d) (cc_samplers (get_cache (rc, cx) (sy_caches (fst (res_step devices hs s (RCreateSampler rc cx d)))))) = Some (snd (res_step devices hs s (RCreateSampler rc cx d))).
Proof.
  cbn. unfold cc_createSampler. destruct (mfind (samplerHash hs d) (cc_samplers (get_cache (rc, cx) (sy_caches s)))) as [y|] eqn:F.
  - cbn. rewrite get_put_same. exact F.
  - destruct (rh_createSampler _ _) as [h1 y]. cbn. rewrite get_put_same. cbn. apply mfind_mput_same.
Qed.
Lemma sampler_again hs devices s rc cx d x : mfind (samplerHash hs d) (cc_samplers (get_cache (rc, cx) (sy_caches s))) = Some x ->
  snd (res_step devices hs s (RCreateSampler rc cx d)) = x.
Proof. intros H. cbn. unfold cc_createSampler. rewrite H. reflexivity. Qed.
Lemma sampler_hit hs devices s rc cx d x : mfind (samplerHash hs d) (cc_samplers (get_cache (rc, cx) (sy_caches s))) = Some x ->
  driver_log (fst (res_step devices hs s (RCreateSampler rc cx d))) = driver_log s.
Proof. intros H. cbn. unfold cc_createSampler. rewrite H. reflexivity. Qed.
Lemma sampler_first hs devices rc cx d : snd (res_step devices hs new_rsystem (RCreateSampler rc cx d)) = 1 /\
  driver_log (fst (res_step devices hs new_rsystem (RCreateSampler rc cx d))) = [Created (OSampler d) 1].
Proof.
  unfold res_step, cc_createSampler. cbn [sy_caches sy_handler new_rsystem get_cache cc_samplers empty_ccache mfind].
  generalize (samplerHash hs d). intros a. split; reflexivity.
Qed.
Lemma quad_request hs devices s rc cx q :
  mfind (quadHash q) (cc_buffers (get_cache (rc, cx) (sy_caches (fst (res_step devices hs s (RCreateQuad rc cx q)))))) = Some (snd (res_step devices hs s (RCreateQuad rc cx q))).
Proof.
  cbn. unfold cc_createQuad. destruct (mfind (quadHash q) (cc_buffers (get_cache (rc, cx) (sy_caches s)))) as [y|] eqn:F.
  - cbn. rewrite get_put_same. exact F.
  - destruct (rh_createQuad _ _ _) as [h1 y]. cbn. rewrite get_put_same. cbn. apply mfind_mput_same.
Qed.
Lemma quad_again hs devices s rc cx q x : mfind (quadHash q) (cc_buffers (get_cache (rc, cx) (sy_caches s))) = Some x ->
  snd (res_step devices hs s (RCreateQuad rc cx q)) = x.
Proof. intros H. cbn. unfold cc_createQuad. rewrite H. reflexivity. Qed.

Lemma run_app hs devices s a b : res_run devices hs s (a ++ b) = res_run devices hs (res_run devices hs s a) b.
Proof. apply fold_left_app. Qed.
Lemma run_snoc hs devices s a o : res_run devices hs s (a ++ [o]) = fst (res_step devices hs (res_run devices hs s a) o).
Proof. rewrite run_app. reflexivity. Qed.

(* the sampler known for a hash by a cache, after any history *)
Lemma known_sampler hs devices ops k a x :
  mfind a (cc_samplers (get_cache k (sy_caches (res_run devices hs new_rsystem ops)))) = Some x ->
  exists d, In (Created (OSampler d) x) (driver_log (res_run devices hs new_rsystem ops)) /\ alive (res_run devices hs new_rsystem ops) x /\ samplerHash hs d = a.
Proof.
  intros H. pose proof (sinv_run hs devices ops _ (sinv_new hs)) as I.
  apply mfind_in in H. apply (ref_get cc_samplers k _ a x eq_refl (si_keys _ _ I)) in H.
  destruct (si_smp _ _ I _ _ _ H) as (d & [H1 H2] & H3). exists d. split; [exact H1|]. split; [|exact H3].
  split; [exact (in_created _ _ _ H1) | exact H2].
Qed.
Lemma known_quad hs devices ops k a x :
  mfind a (cc_buffers (get_cache k (sy_caches (res_run devices hs new_rsystem ops)))) = Some x ->
  exists q, In (Created (OQuad q) x) (driver_log (res_run devices hs new_rsystem ops)) /\ alive (res_run devices hs new_rsystem ops) x /\ quadHash q = a.
Proof.
  intros H. pose proof (sinv_run hs devices ops _ (sinv_new hs)) as I.
  apply mfind_in in H. apply (ref_get cc_buffers k _ a x eq_refl (si_keys _ _ I)) in H.
  destruct (si_buf _ _ I _ _ _ H) as (d & [H1 H2] & H3). exists d. split; [exact H1|]. split; [|exact H3].
  split; [exact (in_created _ _ _ H1) | exact H2].
Qed.
Lemma quadHash_inj q q' : quadHash q = quadHash q' -> q = q'.
Proof. destruct q as [[] [] []], q' as [[] [] []]; cbn; intros H; try reflexivity; discriminate H. Qed.

(* samplers are created from requested descriptions only *)
Lemma vkd_no_sampler h y d x : In (Created (OSampler d) x) (rh_log (vk_destroy h y)) -> In (Created (OSampler d) x) (rh_log h).
Proof.
  unfold vk_destroy. destruct (N.eqb y 0); [intros H; exact H|]. cbn. rewrite in_app_iff. intros [H | [H | []]]; [exact H | discriminate].
Qed.
Lemma destroyed_only_img h i d x : In (Created (OSampler d) x) (rh_log (rh_destroyImage h i)) -> In (Created (OSampler d) x) (rh_log h).
Proof. unfold rh_destroyImage. destruct (mfind i (rh_images h)) as [[v m]|]; [|intros H; exact H]. cbn. intros H. apply vkd_no_sampler, vkd_no_sampler in H. exact H. Qed.
Lemma destroyed_only_view h i d x : In (Created (OSampler d) x) (rh_log (rh_destroyImageView h i)) -> In (Created (OSampler d) x) (rh_log h).
Proof. unfold rh_destroyImageView. destruct (mfind i (rh_views h)) as [v|]; [|intros H; exact H]. cbn. apply vkd_no_sampler. Qed.
Lemma destroyed_only_smp h i d x : In (Created (OSampler d) x) (rh_log (rh_destroySampler h i)) -> In (Created (OSampler d) x) (rh_log h).
Proof. unfold rh_destroySampler. destruct (mfind i (rh_samplers h)) as [v|]; [|intros H; exact H]. cbn. apply vkd_no_sampler. Qed.
Lemma destroyed_only_buf h i d x : In (Created (OSampler d) x) (rh_log (rh_destroyVertexBuffer h i)) -> In (Created (OSampler d) x) (rh_log h).
Proof. unfold rh_destroyVertexBuffer. destruct (mfind i (rh_buffers h)) as [v|]; [|intros H; exact H]. cbn. intros H. apply vkd_no_sampler, vkd_no_sampler in H. exact H. Qed.
Lemma fold_only {A} (f : rhandler -> A -> rhandler) d x : (forall h a, In (Created (OSampler d) x) (rh_log (f h a)) -> In (Created (OSampler d) x) (rh_log h)) ->
  forall l h, In (Created (OSampler d) x) (rh_log (fold_left f l h)) -> In (Created (OSampler d) x) (rh_log h).
Proof. intros H. induction l as [|a r IH]; intros h Hin; [exact Hin|]. apply H with a, IH, Hin. Qed.
Lemma cc_destroy_only h c d x : In (Created (OSampler d) x) (rh_log (cc_destroy h c)) -> In (Created (OSampler d) x) (rh_log h).
Proof.
  unfold cc_destroy. intros H.
  apply fold_only in H; [|intros; eapply destroyed_only_buf; eassumption].
  apply fold_only in H; [|intros; eapply destroyed_only_smp; eassumption].
  apply fold_only in H; [|intros; eapply destroyed_only_img; eassumption].
  apply fold_only in H; [exact H|intros; eapply destroyed_only_view; eassumption].
Qed.
Lemma createImage_only h dev i d x : In (Created (OSampler d) x) (rh_log (fst (rh_createImage h dev i))) -> In (Created (OSampler d) x) (rh_log h).
Proof.
  unfold rh_createImage. destruct (mfind i (rh_images h)) as [[v m]|]; [intros H; exact H|]. destruct dev; cbn; rewrite ?in_app_iff; cbn.
  - intros [[H | [H | []]] | [H | []]]; [exact H | discriminate | discriminate].
  - intros [H | [H | []]]; [exact H | discriminate].
Qed.
Lemma any_only (f : rhandler -> ccache -> rhandler * bool) cs rc d x :
  (forall h c, In (Created (OSampler d) x) (rh_log (fst (f h c))) -> In (Created (OSampler d) x) (rh_log h)) ->
  forall order h, In (Created (OSampler d) x) (rh_log (fst (destroy_any f h cs rc order))) -> In (Created (OSampler d) x) (rh_log h).
Proof.
  intros H. induction order as [|cx r IH]; intros h; cbn; [intros Hin; exact Hin|].
  specialize (H h (get_cache (rc, cx) cs)). destruct (f h (get_cache (rc, cx) cs)) as [h1 b]. cbn in H. destruct b; [exact H|].
  intros Hin. apply H, IH, Hin.
Qed.
Lemma step_only hs devices s o d x : In (Created (OSampler d) x) (driver_log (fst (res_step devices hs s o))) ->
  In (Created (OSampler d) x) (driver_log s) \/ exists rc cx, o = RCreateSampler rc cx d.
Proof.
  unfold driver_log. destruct o; cbn.
  - unfold cc_createImage. pose proof (createImage_only (sy_handler s) (devices cx) img d x) as H. destruct (rh_createImage _ _ _) as [h1 [vk cr]].
    cbn in *. intros Hin. left. exact (H Hin).
  - unfold cc_createImageView, rh_createImageView. destruct (mfind v (rh_views (sy_handler s))); [cbn; intros H; left; exact H|].
    pose proof (createImage_only (sy_handler s) (devices cx) img d x) as H. destruct (rh_createImage _ _ _) as [h1 [vk cr]].
    cbn in *. rewrite in_app_iff. intros [Hin | [Hin | []]]; [left; exact (H Hin) | discriminate].
  - unfold cc_destroyImage. destruct (mfind img _); cbn; intros H; left; [exact (destroyed_only_img _ _ _ _ H) | exact H].
  - unfold cc_destroyImageView. destruct (mfind v _); cbn; intros H; left; [exact (destroyed_only_view _ _ _ _ H) | exact H].
  - pose proof (any_only (fun h c => cc_destroyImage h c img) (sy_caches s) rc d x) as A.
    specialize (fun P => A P order (sy_handler s)). destruct (destroy_any _ _ _ _ _) as [h1 b]. cbn in *. intros H. left. apply A; [|exact H].
    intros h c. unfold cc_destroyImage. destruct (mfind img _); cbn; [apply destroyed_only_img | intros X; exact X].
  - pose proof (any_only (fun h c => cc_destroyImageView h c v) (sy_caches s) rc d x) as A.
    specialize (fun P => A P order (sy_handler s)). destruct (destroy_any _ _ _ _ _) as [h1 b]. cbn in *. intros H. left. apply A; [|exact H].
    intros h c. unfold cc_destroyImageView. destruct (mfind v _); cbn; [apply destroyed_only_view | intros X; exact X].
  - unfold cc_createSampler. destruct (mfind _ _); cbn; [intros H; left; exact H|]. rewrite in_app_iff. intros [H | [H | []]]; [left; exact H|].
    inversion H; subst. right. exists rc, cx. reflexivity.
  - unfold cc_createQuad, rh_createQuad. destruct (mfind _ _); cbn; [intros H; left; exact H|]. destruct (devices cx); cbn; rewrite ?in_app_iff; cbn.
    + intros [[H | [H | []]] | [H | []]]; [left; exact H | discriminate | discriminate].
    + intros [H | [H | []]]; [left; exact H | discriminate].
  - intros H. left. apply fold_only in H; [exact H|]. intros h e. destruct (N.eqb _ _); [apply cc_destroy_only | intros X; exact X].
Qed.
Lemma run_only hs devices d x : forall ops s, In (Created (OSampler d) x) (driver_log (res_run devices hs s ops)) ->
  In (Created (OSampler d) x) (driver_log s) \/ exists rc cx, In (RCreateSampler rc cx d) ops.
Proof.
  unfold res_run. induction ops as [|o r IH]; intros s H; [left; exact H|]. cbn in H. apply IH in H as [H | (rc & cx & H)].
  - apply step_only in H as [H | (rc & cx & ->)]; [left; exact H | right; exists rc, cx; left; reflexivity].
  - right. exists rc, cx. right. exact H.
Qed.

(* ------------------------------------------------------------------ hash *)
Lemma lt_pow2_bits x n : (forall i, n <= i -> N.testbit x i = false) -> x < 2 ^ n.
Proof.
  intros H. assert (E : x mod 2 ^ n = x).
  { rewrite <- N.land_ones. apply N.bits_inj. intros i. rewrite N.land_spec.
    destruct (N.lt_ge_cases i n) as [Hi | Hi].
    - rewrite N.ones_spec_low by exact Hi. apply Bool.andb_true_r.
    - rewrite (H i Hi). reflexivity. }
  rewrite <- E. apply N.mod_lt. apply N.pow_nonzero. discriminate.
Qed.
Lemma bits_lt_pow2 x n i : x < 2 ^ n -> n <= i -> N.testbit x i = false.
Proof.
  intros H Hi. rewrite <- (N.mod_small x (2 ^ n) H). apply N.mod_pow2_bits_high. exact Hi.
Qed.
Lemma xor_lt x y n : x < 2 ^ n -> y < 2 ^ n -> N.lxor x y < 2 ^ n.
Proof.
  intros Hx Hy. apply lt_pow2_bits. intros i Hi. rewrite N.lxor_spec, (bits_lt_pow2 x n i Hx Hi), (bits_lt_pow2 y n i Hy Hi). reflexivity.
Qed.
Lemma shr_lt x k n : x < 2 ^ n -> N.shiftr x k < 2 ^ n.
Proof. intros H. apply lt_pow2_bits. intros i Hi. rewrite N.shiftr_spec by lia. apply (bits_lt_pow2 x n); [exact H | lia]. Qed.
Lemma xor_inj_r a x y : N.lxor a x = N.lxor a y -> x = y.
Proof.
  intros H. apply (f_equal (N.lxor a)) in H. rewrite <- !N.lxor_assoc, N.lxor_nilpotent, !N.lxor_0_l in H. exact H.
Qed.
Definition kInv : N := 15877131476434367193.
Lemma unmul x : x < 2 ^ 64 -> (u64 (x * kMul) * kInv) mod 2 ^ 64 = x.
Proof.
  intros H. unfold u64. rewrite N.mul_mod_idemp_l by discriminate. rewrite <- N.mul_assoc.
  rewrite <- N.mul_mod_idemp_r by discriminate. change ((kMul * kInv) mod 2 ^ 64) with 1. rewrite N.mul_1_r. apply N.mod_small. exact H.
Qed.
Lemma mul_inj x y : x < 2 ^ 64 -> y < 2 ^ 64 -> u64 (x * kMul) = u64 (y * kMul) -> x = y.
Proof. intros Hx Hy H. rewrite <- (unmul x Hx), <- (unmul y Hy), H. reflexivity. Qed.
Lemma xorshift_inj x y : x < 2 ^ 64 -> y < 2 ^ 64 -> N.lxor x (N.shiftr x 47) = N.lxor y (N.shiftr y 47) -> x = y.
Proof.
  intros Hx Hy H.
  assert (Hb : forall i, xorb (N.testbit x i) (N.testbit x (i + 47)) = xorb (N.testbit y i) (N.testbit y (i + 47))).
  { intros i. apply (f_equal (fun z => N.testbit z i)) in H. rewrite !N.lxor_spec, !N.shiftr_spec in H by lia. exact H. }
  assert (H1 : forall i, 17 <= i -> N.testbit x i = N.testbit y i).
  { intros i Hi. specialize (Hb i). rewrite (bits_lt_pow2 x 64 (i + 47)), (bits_lt_pow2 y 64 (i + 47)) in Hb by (assumption || lia).
    destruct (N.testbit x i), (N.testbit y i); cbn in Hb; congruence. }
  apply N.bits_inj. intros i. specialize (Hb i). rewrite (H1 (i + 47)) in Hb by lia.
  destruct (N.testbit x i), (N.testbit y i), (N.testbit y (i + 47)); cbn in Hb; congruence.
Qed.
Lemma u64_lt x : u64 x < 2 ^ 64.
Proof. unfold u64. apply N.mod_lt. discriminate. Qed.
Lemma hashCombine_lt s h : hashCombine s h < 2 ^ 64.
Proof. apply u64_lt. Qed.
Lemma hashCombine_inj s h h' : s < 2 ^ 64 -> h < 2 ^ 64 -> h' < 2 ^ 64 -> hashCombine s h = hashCombine s h' -> h = h'.
Proof.
  intros Hs Hh Hh' H. unfold hashCombine in H.
  apply mul_inj in H; [|apply xor_lt; [apply u64_lt | apply shr_lt, u64_lt] | apply xor_lt; [apply u64_lt | apply shr_lt, u64_lt]].
  apply xorshift_inj in H; [|apply u64_lt | apply u64_lt].
  apply mul_inj in H; [|apply xor_lt; [exact Hs | apply xor_lt; [apply u64_lt | apply shr_lt, u64_lt]] | apply xor_lt; [exact Hs | apply xor_lt; [apply u64_lt | apply shr_lt, u64_lt]]].
  apply xor_inj_r in H. apply xorshift_inj in H; [|apply u64_lt | apply u64_lt].
  apply mul_inj in H; [|apply xor_lt; assumption | apply xor_lt; assumption].
  rewrite (N.lxor_comm h), (N.lxor_comm h') in H. apply xor_inj_r in H. exact H.
Qed.

(* pigeonhole *)
Lemma pigeonhole (f : N -> N) n m : (forall x, x < n -> f x < m) -> m < n -> exists x y, x < n /\ y < n /\ x <> y /\ f x = f y.
Proof.
  intros Hf Hmn.
  assert (Hnd : ~ NoDup (map f (iota n))).
  { intros H. assert (Hincl : incl (map f (iota n)) (iota m)).
    { intros y Hy. apply in_map_iff in Hy as (x & <- & Hx). apply in_iota in Hx. apply in_iota. exact (Hf _ Hx). }
    pose proof (NoDup_incl_length H Hincl) as L. unfold iota in L. rewrite !map_length, !seq_length in L. lia. }
  assert (Hd : forall l, ~ NoDup (map f l) -> NoDup l -> exists x y, In x l /\ In y l /\ x <> y /\ f x = f y).
  { induction l as [|a r IH]; intros H Hn; [exfalso; apply H; constructor|]. apply NoDup_cons_iff in Hn as [Hn1 Hn2].
    destruct (in_dec N.eq_dec (f a) (map f r)) as [Hi | Hi].
    - apply in_map_iff in Hi as (y & Hy & Hi). exists a, y. split; [left; reflexivity|]. split; [right; exact Hi|].
      split; [intros ->; exact (Hn1 Hi) | symmetry; exact Hy].
    - destruct IH as (x & y & Hx & Hy & Hxy); [|exact Hn2|exists x, y; split; [right; exact Hx | split; [right; exact Hy | exact Hxy]]].
      intros Hr. apply H. cbn. constructor; assumption. }
  destruct (Hd (iota n) Hnd) as (x & y & Hx & Hy & Hxy).
  - unfold iota. apply FinFun.Injective_map_NoDup; [intros a b E; lia | apply seq_NoDup].
  - exists x, y. split; [apply in_iota; exact Hx|]. split; [apply in_iota; exact Hy | exact Hxy].
Qed.

(* descriptions that differ by their three floats only, all positive finite floats *)
Definition desc_of (x : N) : sampler_desc :=
  {| sd_mag := 0; sd_min := 0; sd_mip := 0; sd_u := 2; sd_v := 2; sd_w := 2;
     sd_bias := 1 + x mod 2 ^ 30; sd_minLod := 1 + (x / 2 ^ 30) mod 2 ^ 30; sd_maxLod := 1 + (x / 2 ^ 60) mod 2 ^ 30 |}.
Lemma desc_of_inj x y : x < 2 ^ 90 -> y < 2 ^ 90 -> desc_of x = desc_of y -> x = y.
Proof.
  intros Hx Hy H.
  assert (D : forall z, z < 2 ^ 90 -> z = 2 ^ 60 * ((z / 2 ^ 60) mod 2 ^ 30) + 2 ^ 30 * ((z / 2 ^ 30) mod 2 ^ 30) + z mod 2 ^ 30).
  { intros z Hz. pose proof (N.div_mod z (2 ^ 30) ltac:(discriminate)) as E1.
    pose proof (N.div_mod (z / 2 ^ 30) (2 ^ 30) ltac:(discriminate)) as E2.
    rewrite N.div_div in E2 by discriminate. change (2 ^ 30 * 2 ^ 30) with (2 ^ 60) in E2.
    rewrite (N.mod_small (z / 2 ^ 60)) by (apply N.div_lt_upper_bound; [discriminate | exact Hz]).
    change (2 ^ 60) with (2 ^ 30 * 2 ^ 30) at 1. rewrite <- N.mul_assoc. lia. }
  rewrite (D x Hx), (D y Hy). pose proof (f_equal sd_bias H) as H1. pose proof (f_equal sd_minLod H) as H2. pose proof (f_equal sd_maxLod H) as H3. unfold desc_of in H1, H2, H3. cbn [sd_bias sd_minLod sd_maxLod] in H1, H2, H3.
  apply N.add_cancel_l in H1. apply N.add_cancel_l in H2. apply N.add_cancel_l in H3. rewrite H1, H2, H3. reflexivity.
Qed.
Definition finite_float (b : N) : Prop := 0 < b < 0x7f800000.
Lemma desc_of_finite x : finite_float (sd_bias (desc_of x)) /\ finite_float (sd_minLod (desc_of x)) /\ finite_float (sd_maxLod (desc_of x)).
Proof.
  unfold finite_float, desc_of. cbn [sd_bias sd_minLod sd_maxLod].
  pose proof (N.mod_lt x (2 ^ 30) ltac:(discriminate)). pose proof (N.mod_lt (x / 2 ^ 30) (2 ^ 30) ltac:(discriminate)).
  pose proof (N.mod_lt (x / 2 ^ 60) (2 ^ 30) ltac:(discriminate)). change (2 ^ 30) with 1073741824 in *. lia.
Qed.
Lemma fold_hash_lt l : forall a, l <> [] -> fold_left hashCombine l a < 2 ^ 64.
Proof.
  induction l as [|x [|y r] IH]; intros a H; [contradiction H; reflexivity | apply hashCombine_lt | apply IH; discriminate].
Qed.
Lemma samplerHash_lt hs d : samplerHash hs d < 2 ^ 64.
Proof. apply fold_hash_lt. discriminate. Qed.
Lemma collision hs : exists d d', d <> d' /\ samplerHash hs d = samplerHash hs d' /\
  finite_float (sd_bias d) /\ finite_float (sd_minLod d) /\ finite_float (sd_maxLod d) /\
  finite_float (sd_bias d') /\ finite_float (sd_minLod d') /\ finite_float (sd_maxLod d').
Proof.
  destruct (pigeonhole (fun x => samplerHash hs (desc_of x)) (2 ^ 90) (2 ^ 64)) as (x & y & Hx & Hy & Hxy & E).
  - intros x _. apply samplerHash_lt.
  - reflexivity.
  - exists (desc_of x), (desc_of y). split; [intros H; apply Hxy; exact (desc_of_inj _ _ Hx Hy H)|]. split; [exact E|].
    destruct (desc_of_finite x) as (A & B & C), (desc_of_finite y) as (A' & B' & C'). repeat split; assumption || (apply A || apply B || apply C || apply A' || apply B' || apply C').
Qed.
Lemma desc_ext d d' : sd_mag d = sd_mag d' -> sd_min d = sd_min d' -> sd_mip d = sd_mip d' -> sd_u d = sd_u d' -> sd_v d = sd_v d' ->
  sd_w d = sd_w d' -> sd_bias d = sd_bias d' -> sd_minLod d = sd_minLod d' -> sd_maxLod d = sd_maxLod d' -> d = d'.
Proof. destruct d, d'. cbn. congruence. Qed.
Definition prefixList (hs : hashes) (d : sampler_desc) : list N :=
  [std_hash_enum hs (sd_min d); std_hash_enum hs (sd_mip d); std_hash_enum hs (sd_u d); std_hash_enum hs (sd_v d);
   std_hash_enum hs (sd_w d); std_hash_float hs (sd_bias d); std_hash_float hs (sd_minLod d)].
Definition prefixHash (hs : hashes) (d : sampler_desc) : N := fold_left hashCombine (prefixList hs d) (std_hash_enum hs (sd_mag d)).
Lemma fold_snoc (l : list N) x a : fold_left hashCombine (l ++ [x]) a = hashCombine (fold_left hashCombine l a) x.
Proof. apply fold_left_app. Qed.
Lemma samplerHash_last hs d : samplerHash hs d = hashCombine (prefixHash hs d) (std_hash_float hs (sd_maxLod d)).
Proof. exact (fold_snoc (prefixList hs d) (std_hash_float hs (sd_maxLod d)) (std_hash_enum hs (sd_mag d))). Qed.
Lemma prefixHash_lt hs d : prefixHash hs d < 2 ^ 64.
Proof.
  unfold prefixHash. change (prefixList hs d) with (removelast (prefixList hs d) ++ [std_hash_float hs (sd_minLod d)]).
  rewrite fold_snoc. apply hashCombine_lt.
Qed.
