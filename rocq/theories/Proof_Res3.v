(* Histories of the caches: C31, C32, C55. *)
From Coq Require Import Lia ZifyBool ZifyNat ZifyN.
From Verif Require Import Spec_Res Proof_Layout Proof_Res Proof_Res2.
Local Open Scope N_scope.

Record sinv (hs : hashes) (s : rsystem) : Prop := {
  si_h : inv (sy_handler s);
  si_keys : NoDup (map fst (sy_caches s));
  si_smp : forall k a x, ref cc_samplers (sy_caches s) k a x ->
           exists d, live (driver_log s) (OSampler d) x /\ samplerHash hs d = a;
  si_smp_own : forall k a k' a' x, ref cc_samplers (sy_caches s) k a x -> ref cc_samplers (sy_caches s) k' a' x -> k = k' /\ a = a';
  si_smp_rec : forall x u, mfind x (rh_samplers (sy_handler s)) = Some u -> exists k a, ref cc_samplers (sy_caches s) k a x;
  si_buf : forall k a x, ref cc_buffers (sy_caches s) k a x ->
           exists q, live (driver_log s) (OQuad q) x /\ quadHash q = a;
  si_buf_own : forall k a k' a' x, ref cc_buffers (sy_caches s) k a x -> ref cc_buffers (sy_caches s) k' a' x -> k = k' /\ a = a';
  si_buf_rec : forall x u, mfind x (rh_buffers (sy_handler s)) = Some u -> exists k a, ref cc_buffers (sy_caches s) k a x;
  si_view_rec : forall v x, mfind v (rh_views (sy_handler s)) = Some x -> exists k y, ref cc_views (sy_caches s) k v y }.

Lemma sinv_new hs : sinv hs new_rsystem.
Proof.
  split; cbn; try discriminate.
  - exact inv_new.
  - constructor.
  - intros k a x (c & [] & _).
  - intros k a k' a' x (c & [] & _).
  - intros k a x (c & [] & _).
  - intros k a k' a' x (c & [] & _).
Qed.

(* steps that change neither the samplers nor the vertex buffers *)
Lemma sinv_frame hs s h' cs' : sinv hs s -> inv h' -> extends (sy_handler s) h' ->
  (forall x, mfind x (rh_samplers h') = mfind x (rh_samplers (sy_handler s))) ->
  (forall x, mfind x (rh_buffers h') = mfind x (rh_buffers (sy_handler s))) ->
  NoDup (map fst cs') ->
  (forall k a x, ref cc_samplers cs' k a x <-> ref cc_samplers (sy_caches s) k a x) ->
  (forall k a x, ref cc_buffers cs' k a x <-> ref cc_buffers (sy_caches s) k a x) ->
  (forall v x, mfind v (rh_views h') = Some x -> exists k y, ref cc_views cs' k v y) ->
  sinv hs {| sy_handler := h'; sy_caches := cs' |}.
Proof.
  intros [Ih Ik S1 S2 S3 B1 B2 B3 V1] I' E Hs Hb Hn Rs Rb Rv. split; cbn; try assumption.
  - intros k a x H. apply Rs in H. destruct (S1 _ _ _ H) as (d & H1 & H2). exists d. split; [|exact H2].
    apply (still_live _ _ _ _ I' E H1). cbn. rewrite Hs. exact (in_loc _ Ih _ _ H1).
  - intros k a k' a' x H H'. apply Rs in H. apply Rs in H'. exact (S2 _ _ _ _ _ H H').
  - intros x u H. rewrite Hs in H. destruct (S3 _ _ H) as (k & a & R). exists k, a. apply Rs. exact R.
  - intros k a x H. apply Rb in H. destruct (B1 _ _ _ H) as (q & H1 & H2). exists q. split; [|exact H2].
    apply (still_live _ _ _ _ I' E H1). cbn. rewrite Hb. exact (in_loc _ Ih _ _ H1).
  - intros k a k' a' x H H'. apply Rb in H. apply Rb in H'. exact (B2 _ _ _ _ _ H H').
  - intros x u H. rewrite Hb in H. destruct (B3 _ _ H) as (k & a & R). exists k, a. apply Rb. exact R.
Qed.

Lemma createImage_extends h dev i : extends h (fst (rh_createImage h dev i)).
Proof.
  unfold rh_createImage. destruct (mfind i (rh_images h)) as [[v m]|]; [apply extends_refl|]. destruct dev; cbn.
  - exists ([Created (OImage i) (rh_next h)] ++ [Created (OImageMemory i) (rh_next h + 1)]). symmetry. apply app_assoc.
  - eexists. reflexivity.
Qed.
Lemma createView_extends h dev v i : extends h (fst (rh_createImageView h dev v i)).
Proof.
  unfold rh_createImageView. destruct (mfind v (rh_views h)) as [x|]; [apply extends_refl|].
  pose proof (createImage_extends h dev i) as E. destruct (rh_createImage h dev i) as [h1 r]. cbn in *.
  apply (extends_trans _ _ _ E). eexists. reflexivity.
Qed.
Lemma createView_samplers h dev v i : rh_samplers (fst (rh_createImageView h dev v i)) = rh_samplers h.
Proof.
  unfold rh_createImageView. destruct (mfind v (rh_views h)) as [x|]; [reflexivity|].
  pose proof (createImage_samplers h dev i) as E. destruct (rh_createImage h dev i) as [h1 r]. exact E.
Qed.
Lemma createView_buffers h dev v i : rh_buffers (fst (rh_createImageView h dev v i)) = rh_buffers h.
Proof.
  unfold rh_createImageView. destruct (mfind v (rh_views h)) as [x|]; [reflexivity|].
  pose proof (createImage_buffers h dev i) as E. destruct (rh_createImage h dev i) as [h1 r]. exact E.
Qed.

(* References after an update of one cache whose field f is kept *)
Lemma ref_put_same (f : ccache -> nmap N) k c l : f empty_ccache = [] -> NoDup (map fst l) -> f c = f (get_cache k l) ->
  forall k0 a x, ref f (put_cache k c l) k0 a x <-> ref f l k0 a x.
Proof.
  intros Hf Hn Hc k0 a x. rewrite (ref_put f k c l Hn), Hc, (ref_get f k l a x Hf Hn). split.
  - intros [[-> H] | [_ H]]; exact H.
  - intros H. destruct (ckey_eqb_spec k0 k) as [->|]; [left; split; [reflexivity | exact H] | right; split; assumption].
Qed.
Lemma ref_put_more (f : ccache -> nmap N) k c l : f empty_ccache = [] -> NoDup (map fst l) ->
  (forall a x, In (a, x) (f (get_cache k l)) -> exists y, In (a, y) (f c)) ->
  forall k0 a x, ref f l k0 a x -> exists y, ref f (put_cache k c l) k0 a y.
Proof.
  intros Hf Hn Hc k0 a x H. destruct (ckey_eqb_spec k0 k) as [->|Hk].
  - apply (ref_get f k l a x Hf Hn) in H. destruct (Hc _ _ H) as [y Hy]. exists y. apply (ref_put f k c l Hn). left. split; [reflexivity | exact Hy].
  - exists x. apply (ref_put f k c l Hn). right. split; assumption.
Qed.
Lemma in_mput_more k (v : N) m a (x : N) : In (a, x) m -> exists y, In (a, y) (mput k v m).
Proof.
  induction m as [|[k' v'] r IH]; [intros []|]. cbn. intros H. destruct (N.eqb_spec k k') as [->|].
  - destruct H as [[= <- <-] | H]; [exists v; left; reflexivity | exists x; right; exact H].
  - destruct (N.ltb k k'); [exists x; right; exact H|]. destruct H as [H | H]; [exists x; left; exact H|].
    destruct (IH H) as [y Hy]. exists y. right. exact Hy.
Qed.

Lemma step_createImage hs devices s rc cx img : sinv hs s -> sinv hs (fst (res_step devices hs s (RCreateImage rc cx img))).
Proof.
  intros I. unfold res_step, cc_createImage.
  pose proof (inv_createImage (sy_handler s) (devices cx) img (si_h _ _ I)) as I'.
  pose proof (createImage_extends (sy_handler s) (devices cx) img) as E.
  pose proof (createImage_samplers (sy_handler s) (devices cx) img) as Es.
  pose proof (createImage_buffers (sy_handler s) (devices cx) img) as Eb.
  pose proof (createImage_views (sy_handler s) (devices cx) img) as Ev.
  destruct (rh_createImage (sy_handler s) (devices cx) img) as [h1 [vk cr]]. cbn [fst] in *.
  pose proof (si_keys _ _ I) as Hn.
  apply (sinv_frame hs s); try assumption.
  - intros x. rewrite Es. reflexivity.
  - intros x. rewrite Eb. reflexivity.
  - apply put_nodup. exact Hn.
  - apply ref_put_same; [reflexivity | exact Hn | destruct cr; reflexivity].
  - apply ref_put_same; [reflexivity | exact Hn | destruct cr; reflexivity].
  - intros v x H. rewrite Ev in H. destruct (si_view_rec _ _ I _ _ H) as (k & y & R). exists k, y.
    apply ref_put_same; [reflexivity | exact Hn | destruct cr; reflexivity | exact R].
Qed.
Lemma createView_recorded h dev v i w x : mfind w (rh_views (fst (rh_createImageView h dev v i))) = Some x ->
  mfind w (rh_views h) = Some x \/ (w = v /\ snd (snd (rh_createImageView h dev v i)) = true).
Proof.
  unfold rh_createImageView. destruct (mfind v (rh_views h)) as [y|] eqn:E; [intros H; left; exact H|].
  pose proof (createImage_views h dev i) as Ev. destruct (rh_createImage h dev i) as [h1 r]. cbn in *. rewrite Ev, mfind_mput.
  destruct (N.eqb_spec w v) as [->|]; intros H; [right; split; reflexivity | left; exact H].
Qed.
Lemma step_createView hs devices s rc cx v img : sinv hs s -> sinv hs (fst (res_step devices hs s (RCreateView rc cx v img))).
Proof.
  intros I. unfold res_step, cc_createImageView.
  pose proof (inv_createImageView (sy_handler s) (devices cx) v img (si_h _ _ I)) as I'.
  pose proof (createView_extends (sy_handler s) (devices cx) v img) as E.
  pose proof (createView_samplers (sy_handler s) (devices cx) v img) as Es.
  pose proof (createView_buffers (sy_handler s) (devices cx) v img) as Eb.
  pose proof (createView_recorded (sy_handler s) (devices cx) v img) as Ev.
  destruct (rh_createImageView (sy_handler s) (devices cx) v img) as [h1 [vk cr]]. cbn [fst snd] in *.
  pose proof (si_keys _ _ I) as Hn.
  apply (sinv_frame hs s); try assumption.
  - intros x. rewrite Es. reflexivity.
  - intros x. rewrite Eb. reflexivity.
  - apply put_nodup. exact Hn.
  - apply ref_put_same; [reflexivity | exact Hn | destruct cr; reflexivity].
  - apply ref_put_same; [reflexivity | exact Hn | destruct cr; reflexivity].
  - intros w x H. destruct (Ev _ _ H) as [H1 | [-> ->]].
    + destruct (si_view_rec _ _ I _ _ H1) as (k & y & R).
      destruct (ref_put_more cc_views (rc, cx) (if cr then {| cc_images := cc_images (get_cache (rc, cx) (sy_caches s));
          cc_views := mput v vk (cc_views (get_cache (rc, cx) (sy_caches s))); cc_samplers := cc_samplers (get_cache (rc, cx) (sy_caches s));
          cc_buffers := cc_buffers (get_cache (rc, cx) (sy_caches s)) |} else get_cache (rc, cx) (sy_caches s)) (sy_caches s) eq_refl Hn) with (k0 := k) (a := w) (x := y) as [z Hz].
      * intros a b Hab. destruct cr; [cbn; exact (in_mput_more _ _ _ _ _ Hab) | exists b; exact Hab].
      * exact R.
      * exists k, z. exact Hz.
    + exists (rc, cx), vk. apply (ref_put _ _ _ _ Hn). left. split; [reflexivity|]. cbn. apply in_mput_same.
Qed.

Lemma sinv_destroyed hs s h' cs' di dv : sinv hs s -> eff (sy_handler s) h' di dv no no -> NoDup (map fst cs') ->
  (forall f, f empty_ccache = [] -> forall k a x, ref f cs' k a x <-> ref f (sy_caches s) k a x) ->
  sinv hs {| sy_handler := h'; sy_caches := cs' |}.
Proof.
  intros I E Hn Hr. apply (sinv_frame hs s); try assumption.
  - exact (ef_inv _ _ _ _ _ _ E (si_h _ _ I)).
  - exact (ef_ext _ _ _ _ _ _ E).
  - intros x. exact (ef_smp _ _ _ _ _ _ E x).
  - intros x. exact (ef_buf _ _ _ _ _ _ E x).
  - apply Hr. reflexivity.
  - apply Hr. reflexivity.
  - intros v x H. rewrite (ef_view _ _ _ _ _ _ E) in H. destruct (dv v); [discriminate|].
    destruct (si_view_rec _ _ I _ _ H) as (k & y & R). exists k, y. apply Hr; [reflexivity | exact R].
Qed.
Lemma eff_ccimg h c i : exists di, eff h (fst (cc_destroyImage h c i)) di no no no.
Proof. unfold cc_destroyImage. destruct (mfind i (cc_images c)); eexists; [apply eff_destroyImage | apply eff_refl]. Qed.
Lemma eff_ccview h c i : exists dv, eff h (fst (cc_destroyImageView h c i)) no dv no no.
Proof. unfold cc_destroyImageView. destruct (mfind i (cc_views c)); eexists; [apply eff_destroyView | apply eff_refl]. Qed.
Lemma eff_any_img cs rc i : forall order h, exists di, eff h (fst (destroy_any (fun h c => cc_destroyImage h c i) h cs rc order)) di no no no.
Proof.
  induction order as [|cx r IH]; intros h; cbn; [eexists; apply eff_refl|].
  destruct (eff_ccimg h (get_cache (rc, cx) cs) i) as [d E]. destruct (cc_destroyImage h (get_cache (rc, cx) cs) i) as [h1 b]. cbn in E.
  destruct b; [eexists; exact E|]. destruct (IH h1) as [d' E']. eexists.
  apply (eff_ext_d _ _ _ _ _ _ _ _ _ _ (eff_trans _ _ _ _ _ _ _ _ _ _ _ E E')); intros; reflexivity.
Qed.
Lemma eff_any_view cs rc i : forall order h, exists dv, eff h (fst (destroy_any (fun h c => cc_destroyImageView h c i) h cs rc order)) no dv no no.
Proof.
  induction order as [|cx r IH]; intros h; cbn; [eexists; apply eff_refl|].
  destruct (eff_ccview h (get_cache (rc, cx) cs) i) as [d E]. destruct (cc_destroyImageView h (get_cache (rc, cx) cs) i) as [h1 b]. cbn in E.
  destruct b; [eexists; exact E|]. destruct (IH h1) as [d' E']. eexists.
  apply (eff_ext_d _ _ _ _ _ _ _ _ _ _ (eff_trans _ _ _ _ _ _ _ _ _ _ _ E E')); intros; reflexivity.
Qed.

Lemma createSampler_step hs s k d h1 x : sinv hs s -> rh_createSampler (sy_handler s) d = (h1, x) ->
  mfind (samplerHash hs d) (cc_samplers (get_cache k (sy_caches s))) = None ->
  sinv hs {| sy_handler := h1; sy_caches := put_cache k
     {| cc_images := cc_images (get_cache k (sy_caches s)); cc_views := cc_views (get_cache k (sy_caches s));
        cc_samplers := mput (samplerHash hs d) x (cc_samplers (get_cache k (sy_caches s))); cc_buffers := cc_buffers (get_cache k (sy_caches s)) |} (sy_caches s) |}.
Proof.
  intros I Ec Hnone. pose proof (inv_createSampler (sy_handler s) d (si_h _ _ I)) as I'. rewrite Ec in I'. cbn [fst] in I'.
  assert (Ex : x = rh_next (sy_handler s)) by (unfold rh_createSampler in Ec; cbn in Ec; congruence).
  assert (Es : rh_samplers h1 = minsert x tt (rh_samplers (sy_handler s))) by (unfold rh_createSampler in Ec; cbn in Ec; inversion Ec; reflexivity).
  assert (Eb : rh_buffers h1 = rh_buffers (sy_handler s)) by (unfold rh_createSampler in Ec; cbn in Ec; inversion Ec; reflexivity).
  assert (Ev : rh_views h1 = rh_views (sy_handler s)) by (unfold rh_createSampler in Ec; cbn in Ec; inversion Ec; reflexivity).
  assert (El : rh_log h1 = rh_log (sy_handler s) ++ [Created (OSampler d) x]) by (unfold rh_createSampler in Ec; cbn in Ec; inversion Ec; reflexivity).
  assert (E : extends (sy_handler s) h1) by (eexists; exact El).
  destruct I as [Ih Ik S1 S2 S3 B1 B2 B3 V1].
  assert (Lx : live (rh_log h1) (OSampler d) x) by (rewrite El, Ex; apply (live_create _ _ _ _ _ (in_log _ Ih)); right; split; reflexivity).
  assert (Fresh : forall k' a', ~ ref cc_samplers (sy_caches s) k' a' x).
  { intros k' a' H. destruct (S1 _ _ _ H) as (d' & H' & _). apply (live_pos _ _ _ _ (in_log _ Ih)) in H'. lia. }
  assert (R : forall k0 a y, ref cc_samplers (put_cache k
     {| cc_images := cc_images (get_cache k (sy_caches s)); cc_views := cc_views (get_cache k (sy_caches s));
        cc_samplers := mput (samplerHash hs d) x (cc_samplers (get_cache k (sy_caches s))); cc_buffers := cc_buffers (get_cache k (sy_caches s)) |} (sy_caches s)) k0 a y
     <-> (k0 = k /\ a = samplerHash hs d /\ y = x) \/ ref cc_samplers (sy_caches s) k0 a y).
  { intros k0 a y. rewrite (ref_put _ _ _ _ Ik). cbn [cc_samplers]. rewrite (in_mput_new _ _ _ _ Hnone), (ref_get cc_samplers k _ a y eq_refl Ik). split.
    - intros [[-> [[= -> ->] | H]] | [_ H]]; [left; repeat split | right; exact H | right; exact H].
    - intros [(-> & -> & ->) | H]; [left; split; [reflexivity | left; reflexivity]|].
      destruct (ckey_eqb_spec k0 k) as [->|]; [left; split; [reflexivity | right; exact H] | right; split; assumption]. }
  split; cbn [sy_handler sy_caches driver_log].
  - exact I'.
  - apply put_nodup. exact Ik.
  - intros k0 a y H. apply R in H as [(-> & -> & ->) | H]; [exists d; split; [exact Lx | reflexivity]|].
    destruct (S1 _ _ _ H) as (d' & H1 & H2). exists d'. split; [|exact H2]. apply (still_live _ _ _ _ I' E H1). cbn. rewrite Es, mfind_minsert.
    pose proof (in_loc _ Ih _ _ H1) as Hl. cbn in Hl. rewrite Hl. reflexivity.
  - intros k0 a k' a' y H H'. apply R in H. apply R in H'.
    destruct H as [(-> & -> & ->) | H], H' as [(-> & -> & Ey) | H'].
    + split; reflexivity.
    + exfalso. exact (Fresh _ _ H').
    + subst y. exfalso. exact (Fresh _ _ H).
    + exact (S2 _ _ _ _ _ H H').
  - intros y u H. rewrite Es, mfind_minsert in H. destruct (mfind y (rh_samplers (sy_handler s))) as [u'|] eqn:Ey.
    + destruct (S3 _ _ Ey) as (k0 & a & H0). exists k0, a. apply R. right. exact H0.
    + destruct (N.eqb_spec y x) as [->|]; [|discriminate]. exists k, (samplerHash hs d). apply R. left. repeat split.
  - intros k0 a y H. apply (ref_put_same cc_buffers k _ _ eq_refl Ik) in H; [|reflexivity].
    destruct (B1 _ _ _ H) as (q & H1 & H2). exists q. split; [|exact H2]. apply (still_live _ _ _ _ I' E H1). cbn. rewrite Eb. exact (in_loc _ Ih _ _ H1).
  - intros k0 a k' a' y H H'. apply (ref_put_same cc_buffers k _ _ eq_refl Ik) in H; [|reflexivity].
    apply (ref_put_same cc_buffers k _ _ eq_refl Ik) in H'; [|reflexivity]. exact (B2 _ _ _ _ _ H H').
  - intros y u H. rewrite Eb in H. destruct (B3 _ _ H) as (k0 & a & H0). exists k0, a. apply (ref_put_same cc_buffers k _ _ eq_refl Ik); [reflexivity | exact H0].
  - intros v y H. rewrite Ev in H. destruct (V1 _ _ H) as (k0 & a & H0). exists k0, a. apply (ref_put_same cc_views k _ _ eq_refl Ik); [reflexivity | exact H0].
Qed.

Lemma createQuad_step hs s k dev q h1 x : sinv hs s -> rh_createQuad (sy_handler s) dev q = (h1, x) ->
  mfind (quadHash q) (cc_buffers (get_cache k (sy_caches s))) = None ->
  sinv hs {| sy_handler := h1; sy_caches := put_cache k
     {| cc_images := cc_images (get_cache k (sy_caches s)); cc_views := cc_views (get_cache k (sy_caches s));
        cc_samplers := cc_samplers (get_cache k (sy_caches s)); cc_buffers := mput (quadHash q) x (cc_buffers (get_cache k (sy_caches s))) |} (sy_caches s) |}.
Proof.
  intros I Ec Hnone. pose proof (inv_createQuad (sy_handler s) dev q (si_h _ _ I)) as I'. rewrite Ec in I'. cbn [fst] in I'.
  assert (Ex : x = rh_next (sy_handler s)) by (unfold rh_createQuad in Ec; cbn in Ec; destruct dev; inversion Ec; reflexivity).
  assert (Eb : exists m, rh_buffers h1 = mput x m (rh_buffers (sy_handler s))) by (unfold rh_createQuad in Ec; cbn in Ec; destruct dev; inversion Ec; eexists; reflexivity).
  assert (Es : rh_samplers h1 = rh_samplers (sy_handler s)) by (unfold rh_createQuad in Ec; cbn in Ec; destruct dev; inversion Ec; reflexivity).
  assert (Ev : rh_views h1 = rh_views (sy_handler s)) by (unfold rh_createQuad in Ec; cbn in Ec; destruct dev; inversion Ec; reflexivity).
  assert (El : exists ext, rh_log h1 = (rh_log (sy_handler s) ++ [Created (OQuad q) x]) ++ ext).
  { unfold rh_createQuad in Ec; cbn in Ec; destruct dev; inversion Ec; eexists; [reflexivity | symmetry; apply app_nil_r]. }
  assert (E : extends (sy_handler s) h1) by (unfold extends; destruct El as [ext ->]; eexists; symmetry; apply app_assoc).
  destruct Eb as [m Eb].
  destruct I as [Ih Ik S1 S2 S3 B1 B2 B3 V1].
  assert (Lx : live (rh_log h1) (OQuad q) x).
  { destruct El as [ext El]. split; [rewrite El, !in_app_iff; left; right; left; reflexivity|].
    assert (Hf : mfind x (rh_buffers h1) = Some m) by (rewrite Eb; apply mfind_mput_same).
    destruct (in_buf _ I' _ _ Hf) as (q' & [_ H] & _). exact H. }
  assert (Fresh : forall k' a', ~ ref cc_buffers (sy_caches s) k' a' x).
  { intros k' a' H. destruct (B1 _ _ _ H) as (d' & H' & _). apply (live_pos _ _ _ _ (in_log _ Ih)) in H'. lia. }
  assert (R : forall k0 a y, ref cc_buffers (put_cache k
     {| cc_images := cc_images (get_cache k (sy_caches s)); cc_views := cc_views (get_cache k (sy_caches s));
        cc_samplers := cc_samplers (get_cache k (sy_caches s)); cc_buffers := mput (quadHash q) x (cc_buffers (get_cache k (sy_caches s))) |} (sy_caches s)) k0 a y
     <-> (k0 = k /\ a = quadHash q /\ y = x) \/ ref cc_buffers (sy_caches s) k0 a y).
  { intros k0 a y. rewrite (ref_put _ _ _ _ Ik). cbn [cc_buffers]. rewrite (in_mput_new _ _ _ _ Hnone), (ref_get cc_buffers k _ a y eq_refl Ik). split.
    - intros [[-> [[= -> ->] | H]] | [_ H]]; [left; repeat split | right; exact H | right; exact H].
    - intros [(-> & -> & ->) | H]; [left; split; [reflexivity | left; reflexivity]|].
      destruct (ckey_eqb_spec k0 k) as [->|]; [left; split; [reflexivity | right; exact H] | right; split; assumption]. }
  split; cbn [sy_handler sy_caches driver_log].
  - exact I'.
  - apply put_nodup. exact Ik.
  - intros k0 a y H. apply (ref_put_same cc_samplers k _ _ eq_refl Ik) in H; [|reflexivity].
    destruct (S1 _ _ _ H) as (d & H1 & H2). exists d. split; [|exact H2]. apply (still_live _ _ _ _ I' E H1). cbn. rewrite Es. exact (in_loc _ Ih _ _ H1).
  - intros k0 a k' a' y H H'. apply (ref_put_same cc_samplers k _ _ eq_refl Ik) in H; [|reflexivity].
    apply (ref_put_same cc_samplers k _ _ eq_refl Ik) in H'; [|reflexivity]. exact (S2 _ _ _ _ _ H H').
  - intros y u H. rewrite Es in H. destruct (S3 _ _ H) as (k0 & a & H0). exists k0, a. apply (ref_put_same cc_samplers k _ _ eq_refl Ik); [reflexivity | exact H0].
  - intros k0 a y H. apply R in H as [(-> & -> & ->) | H]; [exists q; split; [exact Lx | reflexivity]|].
    destruct (B1 _ _ _ H) as (d' & H1 & H2). exists d'. split; [|exact H2]. apply (still_live _ _ _ _ I' E H1). cbn. rewrite Eb, mfind_mput.
    destruct (N.eqb y x); [eexists; reflexivity | exact (in_loc _ Ih _ _ H1)].
  - intros k0 a k' a' y H H'. apply R in H. apply R in H'.
    destruct H as [(-> & -> & ->) | H], H' as [(-> & -> & Ey) | H'].
    + split; reflexivity.
    + exfalso. exact (Fresh _ _ H').
    + subst y. exfalso. exact (Fresh _ _ H).
    + exact (B2 _ _ _ _ _ H H').
  - intros y u H. rewrite Eb, mfind_mput in H. destruct (N.eqb_spec y x) as [->|].
    + exists k, (quadHash q). apply R. left. repeat split.
    + destruct (B3 _ _ H) as (k0 & a & H0). exists k0, a. apply R. right. exact H0.
  - intros v y H. rewrite Ev in H. destruct (V1 _ _ H) as (k0 & a & H0). exists k0, a. apply (ref_put_same cc_views k _ _ eq_refl Ik); [reflexivity | exact H0].
Qed.

Lemma ref_filter (f : ccache -> nmap N) rc l k a x :
  ref f (filter (fun e => negb (N.eqb (fst (fst e)) rc)) l) k a x <-> fst k <> rc /\ ref f l k a x.
Proof.
  unfold ref. split.
  - intros (c & H1 & H2). apply filter_In in H1 as [H1 H3]. cbn in H3. split.
    + intros E. rewrite E, N.eqb_refl in H3. discriminate.
    + exists c. split; assumption.
  - intros [Hk (c & H1 & H2)]. exists c. split; [|exact H2]. apply filter_In. split; [exact H1|]. cbn.
    rewrite (proj2 (N.eqb_neq _ _) Hk). reflexivity.
Qed.
Lemma NoDup_map_filter {A B} (f : A -> B) (p : A -> bool) l : NoDup (map f l) -> NoDup (map f (filter p l)).
Proof.
  induction l as [|a r IH]; [constructor|]. cbn. intros H. apply NoDup_cons_iff in H as [H1 H2].
  destruct (p a); [|exact (IH H2)]. cbn. constructor; [|exact (IH H2)]. intros H. apply H1.
  apply in_map_iff in H as (y & Hy & H). apply filter_In in H as [H _]. apply in_map_iff. exists y. split; assumption.
Qed.

Lemma step_destroyCache hs devices s rc : sinv hs s -> sinv hs (fst (res_step devices hs s (RDestroyCache rc))).
Proof.
  intros I. unfold res_step. cbn [fst].
  pose proof (eff_destroy_rc rc (sy_caches s) (sy_handler s)) as E.
  match type of E with eff _ ?x _ _ _ _ => set (h' := x) in * end.
  pose proof (ef_inv _ _ _ _ _ _ E (si_h _ _ I)) as I'. pose proof (ef_ext _ _ _ _ _ _ E) as X.
  destruct I as [Ih Ik S1 S2 S3 B1 B2 B3 V1].
  assert (Skeep : forall k a x, fst k <> rc -> ref cc_samplers (sy_caches s) k a x -> mfind x (rh_samplers h') = mfind x (rh_samplers (sy_handler s))).
  { intros k a x Hk H. rewrite (ef_smp _ _ _ _ _ _ E). destruct (memb _ x) eqn:M; [|reflexivity]. exfalso.
    apply memb_In, (in_gathered cc_samplers snd) in M as (cx & a' & x' & R & Ex). cbn in Ex. subst x'.
    destruct (S2 _ _ _ _ _ H R) as [-> _]. exact (Hk eq_refl). }
  assert (Bkeep : forall k a x, fst k <> rc -> ref cc_buffers (sy_caches s) k a x -> mfind x (rh_buffers h') = mfind x (rh_buffers (sy_handler s))).
  { intros k a x Hk H. rewrite (ef_buf _ _ _ _ _ _ E). destruct (memb _ x) eqn:M; [|reflexivity]. exfalso.
    apply memb_In, (in_gathered cc_buffers snd) in M as (cx & a' & x' & R & Ex). cbn in Ex. subst x'.
    destruct (B2 _ _ _ _ _ H R) as [-> _]. exact (Hk eq_refl). }
  split; cbn [sy_handler sy_caches driver_log].
  - exact I'.
  - apply NoDup_map_filter. exact Ik.
  - intros k a x H. apply ref_filter in H as [Hk H]. destruct (S1 _ _ _ H) as (d & H1 & H2). exists d. split; [|exact H2].
    apply (still_live _ _ _ _ I' X H1). cbn. rewrite (Skeep _ _ _ Hk H). exact (in_loc _ Ih _ _ H1).
  - intros k a k' a' x H H'. apply ref_filter in H as [_ H]. apply ref_filter in H' as [_ H']. exact (S2 _ _ _ _ _ H H').
  - intros x u H. rewrite (ef_smp _ _ _ _ _ _ E) in H. destruct (memb _ x) eqn:M; [discriminate|].
    destruct (S3 _ _ H) as (k & a & R). exists k, a. apply ref_filter. split; [|exact R]. intros <-.
    apply Bool.not_true_iff_false in M. apply M, memb_In, (in_gathered cc_samplers snd). exists (snd k), a, x. split; [|reflexivity]. destruct k; exact R.
  - intros k a x H. apply ref_filter in H as [Hk H]. destruct (B1 _ _ _ H) as (d & H1 & H2). exists d. split; [|exact H2].
    apply (still_live _ _ _ _ I' X H1). cbn. rewrite (Bkeep _ _ _ Hk H). exact (in_loc _ Ih _ _ H1).
  - intros k a k' a' x H H'. apply ref_filter in H as [_ H]. apply ref_filter in H' as [_ H']. exact (B2 _ _ _ _ _ H H').
  - intros x u H. rewrite (ef_buf _ _ _ _ _ _ E) in H. destruct (memb _ x) eqn:M; [discriminate|].
    destruct (B3 _ _ H) as (k & a & R). exists k, a. apply ref_filter. split; [|exact R]. intros <-.
    apply Bool.not_true_iff_false in M. apply M, memb_In, (in_gathered cc_buffers snd). exists (snd k), a, x. split; [|reflexivity]. destruct k; exact R.
  - intros v x H. rewrite (ef_view _ _ _ _ _ _ E) in H. destruct (memb _ v) eqn:M; [discriminate|].
    destruct (V1 _ _ H) as (k & y & R). exists k, y. apply ref_filter. split; [|exact R]. intros <-.
    apply Bool.not_true_iff_false in M. apply M, memb_In, (in_gathered cc_views fst). exists (snd k), v, y. split; [|reflexivity]. destruct k; exact R.
Qed.

Lemma sinv_step hs devices s o : sinv hs s -> sinv hs (fst (res_step devices hs s o)).
Proof.
  intros I. pose proof (si_keys _ _ I) as Hn. destruct o.
  - apply step_createImage. exact I.
  - apply step_createView. exact I.
  - cbn. destruct (eff_ccimg (sy_handler s) (get_cache (rc, cx) (sy_caches s)) img) as [d E].
    destruct (cc_destroyImage (sy_handler s) (get_cache (rc, cx) (sy_caches s)) img) as [h1 b]. cbn in *.
    apply (sinv_destroyed hs s _ _ d no I E); [apply put_nodup; exact Hn|]. intros f Hf. apply ref_put_get; assumption.
  - cbn. destruct (eff_ccview (sy_handler s) (get_cache (rc, cx) (sy_caches s)) v) as [d E].
    destruct (cc_destroyImageView (sy_handler s) (get_cache (rc, cx) (sy_caches s)) v) as [h1 b]. cbn in *.
    apply (sinv_destroyed hs s _ _ no d I E); [apply put_nodup; exact Hn|]. intros f Hf. apply ref_put_get; assumption.
  - cbn. destruct (eff_any_img (sy_caches s) rc img order (sy_handler s)) as [d E].
    destruct (destroy_any _ _ _ _ _) as [h1 b]. cbn in *.
    apply (sinv_destroyed hs s _ _ d no I E); [exact Hn|]. intros; reflexivity.
  - cbn. destruct (eff_any_view (sy_caches s) rc v order (sy_handler s)) as [d E].
    destruct (destroy_any _ _ _ _ _) as [h1 b]. cbn in *.
    apply (sinv_destroyed hs s _ _ no d I E); [exact Hn|]. intros; reflexivity.
  - cbn. unfold cc_createSampler. destruct (mfind (samplerHash hs d) (cc_samplers (get_cache (rc, cx) (sy_caches s)))) as [x|] eqn:F.
    + cbn. apply (sinv_destroyed hs s _ _ no no I (eff_refl _)); [apply put_nodup; exact Hn|]. intros f Hf. apply ref_put_get; assumption.
    + pose proof (fun h1 x H => createSampler_step hs s (rc, cx) d h1 x I H F) as C. destruct (rh_createSampler (sy_handler s) d) as [h1 x].
      exact (C h1 x eq_refl).
  - cbn. unfold cc_createQuad. destruct (mfind (quadHash q) (cc_buffers (get_cache (rc, cx) (sy_caches s)))) as [x|] eqn:F.
    + cbn. apply (sinv_destroyed hs s _ _ no no I (eff_refl _)); [apply put_nodup; exact Hn|]. intros f Hf. apply ref_put_get; assumption.
    + pose proof (fun h1 x H => createQuad_step hs s (rc, cx) (devices cx) q h1 x I H F) as C. destruct (rh_createQuad (sy_handler s) (devices cx) q) as [h1 x].
      exact (C h1 x eq_refl).
  - apply step_destroyCache. exact I.
Qed.
Lemma sinv_run hs devices ops : forall s, sinv hs s -> sinv hs (res_run devices hs s ops).
Proof. unfold res_run. induction ops as [|o r IH]; intros s I; [exact I|]. cbn. apply IH, sinv_step, I. Qed.

(* ------------------------------------------------------------------ images recorded, for disciplined histories *)
Definition irec (s : rsystem) : Prop := forall i p, mfind i (rh_images (sy_handler s)) = Some p -> exists k y, ref cc_images (sy_caches s) k i y.

Lemma irec_frame s h' cs' : irec s ->
  (forall i p, mfind i (rh_images h') = Some p -> mfind i (rh_images (sy_handler s)) = Some p) ->
  (forall k a x, ref cc_images (sy_caches s) k a x -> exists y, ref cc_images cs' k a y) ->
  irec {| sy_handler := h'; sy_caches := cs' |}.
Proof. intros I H1 H2 i p H. cbn in *. destruct (I _ _ (H1 _ _ H)) as (k & y & R). destruct (H2 _ _ _ R) as [z Z]. exists k, z. exact Z. Qed.

Lemma alive_live s x : alive s x -> forall o, In (Created o x) (driver_log s) -> live (driver_log s) o x.
Proof. intros [_ H2] o H. split; assumption. Qed.

Lemma irec_step hs devices s o : sinv hs s -> op_disciplined devices s o -> irec s -> irec (fst (res_step devices hs s o)).
Proof.
  intros I D R. pose proof (si_keys _ _ I) as Hn. destruct o; cbn in D.
  - cbn. unfold cc_createImage, rh_createImage. destruct (mfind img (rh_images (sy_handler s))) as [[v m]|] eqn:F.
    + cbn. apply (irec_frame s); [exact R | intros; assumption|]. intros k a x H. exists x. apply ref_put_get; [reflexivity | exact Hn | exact H].
    + rewrite D. cbn. intros i p. cbn [sy_handler rh_images set_rimages]. rewrite mfind_mput. destruct (N.eqb_spec i img) as [->|]; intros H.
      * exists (rc, cx), (rh_next (sy_handler s)). apply (ref_put _ _ _ _ Hn). left. split; [reflexivity|]. cbn. apply in_mput_same.
      * destruct (R _ _ H) as (k & y & Ry).
        destruct (ref_put_more cc_images (rc, cx) {| cc_images := mput img (rh_next (sy_handler s)) (cc_images (get_cache (rc, cx) (sy_caches s)));
          cc_views := cc_views (get_cache (rc, cx) (sy_caches s)); cc_samplers := cc_samplers (get_cache (rc, cx) (sy_caches s));
          cc_buffers := cc_buffers (get_cache (rc, cx) (sy_caches s)) |} (sy_caches s) eq_refl Hn) with (k0 := k) (a := i) (x := y) as [z Hz].
        -- intros a b Hab. cbn. exact (in_mput_more _ _ _ _ _ Hab).
        -- exact Ry.
        -- exists k, z. exact Hz.
  - cbn. unfold cc_createImageView, rh_createImageView.
    destruct (mfind v (rh_views (sy_handler s))) as [x|] eqn:F.
    + cbn. apply (irec_frame s); [exact R | intros; assumption|]. intros k a y H. exists y. apply ref_put_get; [reflexivity | exact Hn | exact H].
    + destruct D as [(vk & D1 & D2) | (vk & D1 & D2)].
      * pose proof (in_loc _ (si_h _ _ I) _ _ (alive_live _ _ D2 _ D1)) as Hl. cbn in Hl. destruct Hl as [m Hl].
        unfold rh_createImage. rewrite Hl. cbn. apply (irec_frame s); [exact R | intros; assumption|].
        intros k a y H. exists y. apply (ref_put_same cc_images _ _ _ eq_refl Hn); [reflexivity | exact H].
      * pose proof (in_loc _ (si_h _ _ I) _ _ (alive_live _ _ D2 _ D1)) as Hl. cbn in Hl. rewrite F in Hl. discriminate.
  - cbn. destruct (eff_ccimg (sy_handler s) (get_cache (rc, cx) (sy_caches s)) img) as [d E].
    destruct (cc_destroyImage (sy_handler s) (get_cache (rc, cx) (sy_caches s)) img) as [h1 b]. cbn in *.
    apply (irec_frame s); [exact R| |].
    + intros i p. rewrite (ef_img _ _ _ _ _ _ E). destruct (d i); [discriminate | intros H; exact H].
    + intros k a x H. exists x. apply ref_put_get; [reflexivity | exact Hn | exact H].
  - cbn. destruct (eff_ccview (sy_handler s) (get_cache (rc, cx) (sy_caches s)) v) as [d E].
    destruct (cc_destroyImageView (sy_handler s) (get_cache (rc, cx) (sy_caches s)) v) as [h1 b]. cbn in *.
    apply (irec_frame s); [exact R| |].
    + intros i p. rewrite (ef_img _ _ _ _ _ _ E). intros H; exact H.
    + intros k a x H. exists x. apply ref_put_get; [reflexivity | exact Hn | exact H].
  - cbn. destruct (eff_any_img (sy_caches s) rc img order (sy_handler s)) as [d E].
    destruct (destroy_any _ _ _ _ _) as [h1 b]. cbn in *. apply (irec_frame s); [exact R| |].
    + intros i p. rewrite (ef_img _ _ _ _ _ _ E). destruct (d i); [discriminate | intros H; exact H].
    + intros k a x H. exists x. exact H.
  - cbn. destruct (eff_any_view (sy_caches s) rc v order (sy_handler s)) as [d E].
    destruct (destroy_any _ _ _ _ _) as [h1 b]. cbn in *. apply (irec_frame s); [exact R| |].
    + intros i p. rewrite (ef_img _ _ _ _ _ _ E). intros H; exact H.
    + intros k a x H. exists x. exact H.
  - cbn. unfold cc_createSampler. destruct (mfind (samplerHash hs d) (cc_samplers (get_cache (rc, cx) (sy_caches s)))) as [x|]; cbn.
    + apply (irec_frame s); [exact R | intros; assumption|]. intros k a y H. exists y. apply ref_put_get; [reflexivity | exact Hn | exact H].
    + apply (irec_frame s); [exact R | intros; assumption|]. intros k a y H. exists y. apply (ref_put_same cc_images _ _ _ eq_refl Hn); [reflexivity | exact H].
  - cbn. unfold cc_createQuad, rh_createQuad. destruct (mfind (quadHash q) (cc_buffers (get_cache (rc, cx) (sy_caches s)))) as [x|]; cbn.
    + apply (irec_frame s); [exact R | intros; assumption|]. intros k a y H. exists y. apply ref_put_get; [reflexivity | exact Hn | exact H].
    + destruct (devices cx); cbn; (apply (irec_frame s); [exact R | intros; assumption|]; intros k a y H; exists y; apply (ref_put_same cc_images _ _ _ eq_refl Hn); [reflexivity | exact H]).
  - cbn. pose proof (eff_destroy_rc rc (sy_caches s) (sy_handler s)) as E. match type of E with eff _ ?x _ _ _ _ => set (h' := x) in * end.
    intros i p H. cbn [sy_handler sy_caches] in *. rewrite (ef_img _ _ _ _ _ _ E) in H. destruct (memb _ i) eqn:M; [discriminate|].
    destruct (R _ _ H) as (k & y & Ry). exists k, y. apply ref_filter. split; [|exact Ry]. intros <-.
    apply Bool.not_true_iff_false in M. apply M, memb_In, (in_gathered cc_images fst). exists (snd k), i, y. split; [|reflexivity]. destruct k; exact Ry.
Qed.
Lemma irec_run hs devices : forall ops s, sinv hs s -> irec s -> disciplined devices hs s ops -> irec (res_run devices hs s ops).
Proof.
  unfold res_run. induction ops as [|o r IH]; intros s I R D; [exact R|]. cbn. destruct D as [D1 D2].
  apply IH; [apply sinv_step, I | apply (irec_step hs); assumption | exact D2].
Qed.

Lemma no_leak hs devices ops : disciplined devices hs new_rsystem ops ->
  sy_caches (res_run devices hs new_rsystem ops) = [] ->
  forall x, In x (created (driver_log (res_run devices hs new_rsystem ops))) -> In x (destroyed (driver_log (res_run devices hs new_rsystem ops))).
Proof.
  intros D Hc x Hx. pose proof (sinv_run hs devices ops _ (sinv_new hs)) as I.
  assert (R : irec (res_run devices hs new_rsystem ops)).
  { apply irec_run; [apply sinv_new | intros i p; discriminate | exact D]. }
  set (s := res_run devices hs new_rsystem ops) in *.
  destruct (in_dec N.eq_dec x (destroyed (driver_log s))) as [H | H]; [exact H|]. exfalso.
  apply created_in in Hx as [o Ho]. assert (Hl : live (rh_log (sy_handler s)) o x) by (split; assumption).
  apply (in_loc _ (si_h _ _ I)) in Hl.
  assert (NR : forall f k a y, ~ ref f (sy_caches s) k a y) by (intros f k a y (c & Hin & _); rewrite Hc in Hin; exact Hin).
  destruct o; cbn in Hl.
  - destruct Hl as [m Hl]. destruct (R _ _ Hl) as (k & y & Ry). exact (NR _ _ _ _ Ry).
  - destruct Hl as [m Hl]. destruct (R _ _ Hl) as (k & y & Ry). exact (NR _ _ _ _ Ry).
  - destruct (si_view_rec _ _ I _ _ Hl) as (k & y & Ry). exact (NR _ _ _ _ Ry).
  - destruct (si_smp_rec _ _ I _ _ Hl) as (k & y & Ry). exact (NR _ _ _ _ Ry).
  - destruct Hl as [m Hl]. destruct (si_buf_rec _ _ I _ _ Hl) as (k & y & Ry). exact (NR _ _ _ _ Ry).
  - destruct (si_buf_rec _ _ I _ _ Hl) as (k & y & Ry). exact (NR _ _ _ _ Ry).
Qed.
