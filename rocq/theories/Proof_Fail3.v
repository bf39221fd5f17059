From Verif Require Import Spec_Fail Proof_Layout Proof_Res Proof_Res2 Proof_Res3 Proof_Res4 Proof_Fail Proof_Fail2.
From Coq Require Import Lia.
Local Open Scope N_scope.

Lemma in_mfind {V} (m : nmap V) a x : In (a, x) m -> mfind a m <> None.
Proof. induction m as [|[k v] r IH]; cbn; [tauto|]. intros [E|H]; [injection E as -> ->; rewrite N.eqb_refl; discriminate|]. destruct (N.eqb a k); [discriminate|exact (IH H)]. Qed.
Lemma get_none (f : ccache -> nmap N) a k cs : f empty_ccache = [] -> (forall e, In e cs -> mfind a (f (snd e)) = None) -> mfind a (f (get_cache k cs)) = None.
Proof.
  intros E. induction cs as [|[k' c] r IH]; intros H; cbn; [rewrite E; reflexivity|]. destruct (ckey_eqb k k'); [exact (H (k', c) (or_introl eq_refl))|].
  apply IH. intros e He. apply H. right. exact He.
Qed.
Lemma put_in (e : ckey * ccache) k c cs : In e (put_cache k c cs) -> e = (k, c) \/ In e cs.
Proof. induction cs as [|[k' c'] r IH]; cbn; [intros [<-|[]]; auto|]. destruct (ckey_eqb k k'); cbn; intros [<-|H]; auto. destruct (IH H); auto. Qed.

(* what the calls of the handler leave of its views and images *)
Lemma di_views h i : rh_views (rh_destroyImage h i) = rh_views h.
Proof. unfold rh_destroyImage. destruct (mfind i (rh_images h)) as [[v m]|]; [|reflexivity]. cbn. rewrite !vkd_views. reflexivity. Qed.
Lemma ds_views h i : rh_views (rh_destroySampler h i) = rh_views h.
Proof. unfold rh_destroySampler. destruct (mfind i (rh_samplers h)); [|reflexivity]. cbn. rewrite !vkd_views. reflexivity. Qed.
Lemma db_views h i : rh_views (rh_destroyVertexBuffer h i) = rh_views h.
Proof. unfold rh_destroyVertexBuffer. destruct (mfind i (rh_buffers h)); [|reflexivity]. cbn. rewrite !vkd_views. reflexivity. Qed.
Lemma dv_images h i : rh_images (rh_destroyImageView h i) = rh_images h.
Proof. unfold rh_destroyImageView. destruct (mfind i (rh_views h)); [|reflexivity]. cbn. rewrite !vkd_images. reflexivity. Qed.
Lemma ds_images h i : rh_images (rh_destroySampler h i) = rh_images h.
Proof. unfold rh_destroySampler. destruct (mfind i (rh_samplers h)); [|reflexivity]. cbn. rewrite !vkd_images. reflexivity. Qed.
Lemma db_images h i : rh_images (rh_destroyVertexBuffer h i) = rh_images h.
Proof. unfold rh_destroyVertexBuffer. destruct (mfind i (rh_buffers h)); [|reflexivity]. cbn. rewrite !vkd_images. reflexivity. Qed.
Lemma dv_view h v w : w <> v -> mfind v (rh_views (rh_destroyImageView h w)) = mfind v (rh_views h).
Proof.
  intros N. unfold rh_destroyImageView. destruct (mfind w (rh_views h)); [|reflexivity]. cbn. rewrite vkd_views, mfind_merase.
  destruct (N.eqb_spec v w); [congruence|reflexivity].
Qed.
Lemma di_image h v w : w <> v -> mfind v (rh_images (rh_destroyImage h w)) = mfind v (rh_images h).
Proof.
  intros N. unfold rh_destroyImage. destruct (mfind w (rh_images h)) as [[x m]|]; [|reflexivity]. cbn. rewrite !vkd_images, mfind_merase.
  destruct (N.eqb_spec v w); [congruence|reflexivity].
Qed.
Lemma fold_same {A B} (g : rhandler -> B) (f : rhandler -> A -> rhandler) : (forall h a, g (f h a) = g h) -> forall l h, g (fold_left f l h) = g h.
Proof. intros H. induction l as [|a r IH]; intros h; [reflexivity|]. cbn. rewrite IH. apply H. Qed.
Lemma fold_same_in {A B} (g : rhandler -> B) (f : rhandler -> A -> rhandler) : forall l h, (forall h a, In a l -> g (f h a) = g h) -> g (fold_left f l h) = g h.
Proof.
  induction l as [|a r IH]; intros h H; [reflexivity|]. cbn. rewrite IH; [apply H; left; reflexivity|]. intros h' a' Ha. apply H. right. exact Ha.
Qed.
Lemma cc_destroy_view h c v : mfind v (cc_views c) = None -> mfind v (rh_views (cc_destroy h c)) = mfind v (rh_views h).
Proof.
  intros Nn. unfold cc_destroy. cbv zeta.
  rewrite (fold_same (fun h => mfind v (rh_views h)) (fun h (e : N * N) => rh_destroyVertexBuffer h (snd e))) by (intros; rewrite db_views; reflexivity).
  rewrite (fold_same (fun h => mfind v (rh_views h)) (fun h (e : N * N) => rh_destroySampler h (snd e))) by (intros; rewrite ds_views; reflexivity).
  rewrite (fold_same (fun h => mfind v (rh_views h)) (fun h (e : N * N) => rh_destroyImage h (fst e))) by (intros; rewrite di_views; reflexivity).
  apply (fold_same_in (fun h => mfind v (rh_views h)) (fun h (e : N * N) => rh_destroyImageView h (fst e))).
  intros h' [w x] H. apply dv_view. cbn. intros ->. exact (in_mfind _ _ _ H Nn).
Qed.
Lemma cc_destroy_image h c v : mfind v (cc_images c) = None -> mfind v (rh_images (cc_destroy h c)) = mfind v (rh_images h).
Proof.
  intros Nn. unfold cc_destroy. cbv zeta.
  rewrite (fold_same (fun h => mfind v (rh_images h)) (fun h (e : N * N) => rh_destroyVertexBuffer h (snd e))) by (intros; rewrite db_images; reflexivity).
  rewrite (fold_same (fun h => mfind v (rh_images h)) (fun h (e : N * N) => rh_destroySampler h (snd e))) by (intros; rewrite ds_images; reflexivity).
  rewrite (fold_same_in (fun h => mfind v (rh_images h)) (fun h (e : N * N) => rh_destroyImage h (fst e))).
  - apply (fold_same (fun h => mfind v (rh_images h)) (fun h (e : N * N) => rh_destroyImageView h (fst e))). intros; rewrite dv_images; reflexivity.
  - intros h' [w x] H. apply di_image. cbn. intros ->. exact (in_mfind _ _ _ H Nn).
Qed.
Lemma ccd_view h c v w : mfind v (cc_views c) = None -> mfind v (rh_views (fst (cc_destroyImageView h c w))) = mfind v (rh_views h).
Proof. intros N. unfold cc_destroyImageView. destruct (mfind w (cc_views c)) eqn:E; [|reflexivity]. apply dv_view. congruence. Qed.
Lemma ccd_image h c v w : mfind v (cc_images c) = None -> mfind v (rh_images (fst (cc_destroyImage h c w))) = mfind v (rh_images h).
Proof. intros N. unfold cc_destroyImage. destruct (mfind w (cc_images c)) eqn:E; [|reflexivity]. apply di_image. congruence. Qed.
Lemma ccd_view_image h c v w : mfind v (rh_images (fst (cc_destroyImageView h c w))) = mfind v (rh_images h).
Proof. unfold cc_destroyImageView. destruct (mfind w (cc_views c)); [cbn; rewrite dv_images|]; reflexivity. Qed.
Lemma ccd_image_view h c v w : mfind v (rh_views (fst (cc_destroyImage h c w))) = mfind v (rh_views h).
Proof. unfold cc_destroyImage. destruct (mfind w (cc_images c)); [cbn; rewrite di_views|]; reflexivity. Qed.
Lemma any_same {B} (g : rhandler -> B) f cs rc : (forall h cx, g (fst (f h (get_cache (rc, cx) cs))) = g h) -> forall order h, g (fst (destroy_any f h cs rc order)) = g h.
Proof.
  intros H. induction order as [|cx r IH]; intros h; [reflexivity|]. cbn. pose proof (H h cx) as E. destruct (f h (get_cache (rc, cx) cs)) as [h1 b]. cbn in E.
  destruct b; [exact E|]. rewrite IH. exact E.
Qed.

(* ------------------------------------------------------------------ creations *)
Lemma rfi_image_other h dev i j l : j <> i -> mfind j (rh_images (fst (fst (rf_createImage h dev i l)))) = mfind j (rh_images h).
Proof.
  intros N. unfold rf_createImage, try_create. destruct (mfind i (rh_images h)) as [[v m]|]; [reflexivity|].
  destruct (ask l) as [[|] l1]; cbn [vk_create]; [destruct dev; [destruct (ask l1) as [[|] l2]; cbn [vk_create]; [destruct (ask l2) as [[|] l3]|]|]|];
    cbn [fst snd rh_images set_rimages]; rewrite mfind_mput; destruct (N.eqb_spec j i); congruence.
Qed.
Lemma rfv_view_other h dev v i w l : w <> v -> mfind w (rh_views (fst (fst (rf_createImageView h dev v i l)))) = mfind w (rh_views h).
Proof.
  intros N. unfold rf_createImageView. destruct (mfind v (rh_views h)); [reflexivity|]. set (h0 := set_rviews h _). pose proof (rfi_views h0 dev i l) as V.
  assert (E : mfind w (rh_views h0) = mfind w (rh_views h)) by (subst h0; cbn; rewrite mfind_mput; destruct (N.eqb_spec w v); congruence).
  destruct (rf_createImage h0 dev i l) as [[h1 l1] r]. cbn [fst] in V. destruct r; cbn [fst]; try congruence. unfold try_create.
  destruct (ask l1) as [[|] l2]; cbn; [|congruence]. rewrite mfind_mput. destruct (N.eqb_spec w v); congruence.
Qed.
Lemma rfv_image_other h dev v i j l : j <> i -> mfind j (rh_images (fst (fst (rf_createImageView h dev v i l)))) = mfind j (rh_images h).
Proof.
  intros N. unfold rf_createImageView. destruct (mfind v (rh_views h)); [reflexivity|]. set (h0 := set_rviews h _). pose proof (rfi_image_other h0 dev i j l N) as V.
  destruct (rf_createImage h0 dev i l) as [[h1 l1] r]. cbn [fst] in V. destruct r; cbn [fst]; try exact V. unfold try_create.
  destruct (ask l1) as [[|] l2]; exact V.
Qed.
Lemma rfv_image_found h dev v i l p : mfind i (rh_images h) = Some p -> mfind i (rh_images (fst (fst (rf_createImageView h dev v i l)))) = Some p.
Proof.
  intros E. unfold rf_createImageView. destruct (mfind v (rh_views h)); [exact E|]. unfold rf_createImage. cbn [rh_images set_rviews]. rewrite E. destruct p as [a b].
  unfold try_create. destruct (ask l) as [[|] l2]; exact E.
Qed.
Lemma rfs_other h d l : rh_views (fst (fst (rf_createSampler h d l))) = rh_views h /\ rh_images (fst (fst (rf_createSampler h d l))) = rh_images h.
Proof. unfold rf_createSampler, try_create. destruct (ask l) as [[|] l1]; split; reflexivity. Qed.
Lemma rfq_other h dev q l : rh_views (fst (fst (rf_createQuad h dev q l))) = rh_views h /\ rh_images (fst (fst (rf_createQuad h dev q l))) = rh_images h.
Proof.
  unfold rf_createQuad, try_create. destruct (ask l) as [[|] l1]; cbn [vk_create]; [|split; reflexivity]. destruct dev; [|split; reflexivity].
  destruct (ask l1) as [[|] l2]; cbn [vk_create]; [|split; reflexivity]. destruct (ask l2) as [[|] l3]; [|split; reflexivity]. destruct (ask l3) as [[|] l4]; split; reflexivity.
Qed.

(* ------------------------------------------------------------------ entries of the handler that no cache records stay *)
Definition unrecorded (f : ccache -> nmap N) (a : N) (cs : list (ckey * ccache)) : Prop := forall e, In e cs -> mfind a (f (snd e)) = None.
Lemma unrecorded_put f a k c cs : unrecorded f a cs -> mfind a (f c) = None -> unrecorded f a (put_cache k c cs).
Proof. intros U N e He. destruct (put_in e k c cs He) as [->|H]; [exact N|exact (U e H)]. Qed.
Lemma unrecorded_filter f a p cs : unrecorded f a cs -> unrecorded f a (filter p cs).
Proof. intros U e He. apply filter_In in He. exact (U e (proj1 He)). Qed.
Definition at_view (v : N) (x : option N) (s : rsystem) : Prop := mfind v (rh_views (sy_handler s)) = x /\ unrecorded cc_views v (sy_caches s).
Definition at_image (i : N) (x : option (N * N)) (s : rsystem) : Prop := mfind i (rh_images (sy_handler s)) = x /\ unrecorded cc_images i (sy_caches s).
Lemma at_view_step devices hs v x s o l : (asks_view v o -> x <> None) -> at_view v x s -> at_view v x (fst (fst (fail_step devices hs s o l))).
Proof.
  intros Q [E U]. pose proof (fun k => get_none cc_views v k (sy_caches s) eq_refl U) as G.
  assert (K : forall k, unrecorded cc_views v (put_cache k (get_cache k (sy_caches s)) (sy_caches s))) by (intros k; apply unrecorded_put; [exact U|apply G]).
  destruct o; cbn [fail_step res_step].
  - unfold cf_createImage. pose proof (rfi_views (sy_handler s) (devices cx) img l) as V. destruct (rf_createImage _ _ _ _) as [[h1 l1] r]. cbn [fst] in V.
    destruct r as [[vk cr]| |]; (split; cbn [fst sy_handler sy_caches]; [congruence|]); [|apply K|apply K]. apply unrecorded_put; [exact U|]. destruct cr; apply G.
  - unfold cf_createImageView. destruct (N.eq_dec v0 v) as [->|Nv].
    + unfold rf_createImageView. destruct (mfind v (rh_views (sy_handler s))) as [y|] eqn:F; [|exfalso; apply Q; [reflexivity|congruence]].
      split; cbn [fst sy_handler sy_caches]; [congruence|apply K].
    + pose proof (rfv_view_other (sy_handler s) (devices cx) v0 img v l (not_eq_sym Nv)) as V. destruct (rf_createImageView _ _ _ _ _) as [[h1 l1] r]. cbn [fst] in V.
      destruct r as [[vk cr]| |]; (split; cbn [fst sy_handler sy_caches]; [congruence|]); [|apply K|apply K]. apply unrecorded_put; [exact U|]. destruct cr; [|apply G].
      cbn. rewrite mfind_mput. destruct (N.eqb_spec v v0); [congruence|apply G].
  - pose proof (ccd_image_view (sy_handler s) (get_cache (rc, cx) (sy_caches s)) v img) as V. destruct (cc_destroyImage _ _ _) as [h b]. cbn in V. split; cbn [fst sy_handler sy_caches]; [congruence|apply K].
  - pose proof (ccd_view (sy_handler s) (get_cache (rc, cx) (sy_caches s)) v v0 (G _)) as V. destruct (cc_destroyImageView _ _ _) as [h b]. cbn in V. split; cbn [fst sy_handler sy_caches]; [congruence|apply K].
  - pose proof (any_same (fun h => mfind v (rh_views h)) (fun h c => cc_destroyImage h c img) (sy_caches s) rc (fun h cx => ccd_image_view h _ v img) order (sy_handler s)) as V.
    destruct (destroy_any _ _ _ _ _) as [h b]. cbn in V. split; cbn [fst sy_handler sy_caches]; [congruence|exact U].
  - pose proof (any_same (fun h => mfind v (rh_views h)) (fun h c => cc_destroyImageView h c v0) (sy_caches s) rc (fun h cx => ccd_view h _ v v0 (G _)) order (sy_handler s)) as V.
    destruct (destroy_any _ _ _ _ _) as [h b]. cbn in V. split; cbn [fst sy_handler sy_caches]; [congruence|exact U].
  - unfold cf_createSampler. destruct (mfind (samplerHash hs d) _); [split; cbn [fst sy_handler sy_caches]; [exact E|apply K]|]. destruct (rfs_other (sy_handler s) d l) as [V _].
    destruct (rf_createSampler _ _ _) as [[h1 l1] r]. cbn [fst] in V. destruct r; (split; cbn [fst sy_handler sy_caches]; [congruence|apply unrecorded_put; [exact U|apply G]]).
  - unfold cf_createQuad. destruct (mfind (quadHash q) _); [split; cbn [fst sy_handler sy_caches]; [exact E|apply K]|]. destruct (rfq_other (sy_handler s) (devices cx) q l) as [V _].
    destruct (rf_createQuad _ _ _ _) as [[h1 l1] r]. cbn [fst] in V. destruct r; (split; cbn [fst sy_handler sy_caches]; [congruence|apply unrecorded_put; [exact U|apply G]]).
  - cbn [fst snd sy_handler sy_caches]. split; [|apply unrecorded_filter, U]. cbn [sy_handler]. rewrite <- E.
    apply (fold_same_in (fun h => mfind v (rh_views h)) (fun h (e : ckey * ccache) => if N.eqb (fst (fst e)) rc then cc_destroy h (snd e) else h)).
    intros h e He. destruct (N.eqb _ _); [|reflexivity]. apply cc_destroy_view. exact (U e He).
Qed.
Lemma at_image_step devices hs i x s o l : (asks_image i o -> x <> None) -> at_image i x s -> at_image i x (fst (fst (fail_step devices hs s o l))).
Proof.
  intros Q [E U]. pose proof (fun k => get_none cc_images i k (sy_caches s) eq_refl U) as G.
  assert (K : forall k, unrecorded cc_images i (put_cache k (get_cache k (sy_caches s)) (sy_caches s))) by (intros k; apply unrecorded_put; [exact U|apply G]).
  destruct o; cbn [fail_step res_step].
  - unfold cf_createImage. destruct (N.eq_dec img i) as [->|Ni].
    + unfold rf_createImage. destruct (mfind i (rh_images (sy_handler s))) as [[y m]|] eqn:F; [|exfalso; apply Q; [reflexivity|congruence]].
      split; cbn [fst sy_handler sy_caches]; [congruence|apply K].
    + pose proof (rfi_image_other (sy_handler s) (devices cx) img i l (not_eq_sym Ni)) as V. destruct (rf_createImage _ _ _ _) as [[h1 l1] r]. cbn [fst] in V.
      destruct r as [[vk cr]| |]; (split; cbn [fst sy_handler sy_caches]; [congruence|]); [|apply K|apply K]. apply unrecorded_put; [exact U|]. destruct cr; [|apply G].
      cbn. rewrite mfind_mput. destruct (N.eqb_spec i img); [congruence|apply G].
  - unfold cf_createImageView. assert (V : mfind i (rh_images (fst (fst (rf_createImageView (sy_handler s) (devices cx) v img l)))) = x).
    { destruct (N.eq_dec img i) as [->|Ni]; [|rewrite rfv_image_other by congruence; exact E]. destruct x as [p|]; [|exfalso; apply Q; reflexivity]. apply rfv_image_found, E. }
    destruct (rf_createImageView _ _ _ _ _) as [[h1 l1] r]. cbn [fst] in V.
    destruct r as [[vk cr]| |]; (split; cbn [fst sy_handler sy_caches]; [congruence|]); [|apply K|apply K]. apply unrecorded_put; [exact U|]. destruct cr; apply G.
  - pose proof (ccd_image (sy_handler s) (get_cache (rc, cx) (sy_caches s)) i img (G _)) as V. destruct (cc_destroyImage _ _ _) as [h b]. cbn in V. split; cbn [fst sy_handler sy_caches]; [congruence|apply K].
  - pose proof (ccd_view_image (sy_handler s) (get_cache (rc, cx) (sy_caches s)) i v) as V. destruct (cc_destroyImageView _ _ _) as [h b]. cbn in V. split; cbn [fst sy_handler sy_caches]; [congruence|apply K].
  - pose proof (any_same (fun h => mfind i (rh_images h)) (fun h c => cc_destroyImage h c img) (sy_caches s) rc (fun h cx => ccd_image h _ i img (G _)) order (sy_handler s)) as V.
    destruct (destroy_any _ _ _ _ _) as [h b]. cbn in V. split; cbn [fst sy_handler sy_caches]; [congruence|exact U].
  - pose proof (any_same (fun h => mfind i (rh_images h)) (fun h c => cc_destroyImageView h c v) (sy_caches s) rc (fun h cx => ccd_view_image h _ i v) order (sy_handler s)) as V.
    destruct (destroy_any _ _ _ _ _) as [h b]. cbn in V. split; cbn [fst sy_handler sy_caches]; [congruence|exact U].
  - unfold cf_createSampler. destruct (mfind (samplerHash hs d) _); [split; cbn [fst sy_handler sy_caches]; [exact E|apply K]|]. destruct (rfs_other (sy_handler s) d l) as [_ V].
    destruct (rf_createSampler _ _ _) as [[h1 l1] r]. cbn [fst] in V. destruct r; (split; cbn [fst sy_handler sy_caches]; [congruence|apply unrecorded_put; [exact U|apply G]]).
  - unfold cf_createQuad. destruct (mfind (quadHash q) _); [split; cbn [fst sy_handler sy_caches]; [exact E|apply K]|]. destruct (rfq_other (sy_handler s) (devices cx) q l) as [_ V].
    destruct (rf_createQuad _ _ _ _) as [[h1 l1] r]. cbn [fst] in V. destruct r; (split; cbn [fst sy_handler sy_caches]; [congruence|apply unrecorded_put; [exact U|apply G]]).
  - cbn [fst snd sy_handler sy_caches]. split; [|apply unrecorded_filter, U]. cbn [sy_handler]. rewrite <- E.
    apply (fold_same_in (fun h => mfind i (rh_images h)) (fun h (e : ckey * ccache) => if N.eqb (fst (fst e)) rc then cc_destroy h (snd e) else h)).
    intros h e He. destruct (N.eqb _ _); [|reflexivity]. apply cc_destroy_image. exact (U e He).
Qed.
Lemma at_view_run devices hs v x : forall ops s, (x = None -> never (asks_view v) ops) -> at_view v x s -> at_view v x (fail_run devices hs s ops).
Proof.
  unfold fail_run. induction ops as [|o r IH]; intros s Nv A; [exact A|]. cbn. apply IH; [intros E; specialize (Nv E); inversion Nv; assumption|].
  apply at_view_step; [|exact A]. intros Q E. specialize (Nv E). inversion Nv; subst. contradiction.
Qed.
Lemma at_image_run devices hs v x : forall ops s, (x = None -> never (asks_image v) ops) -> at_image v x s -> at_image v x (fail_run devices hs s ops).
Proof.
  unfold fail_run. induction ops as [|o r IH]; intros s Nv A; [exact A|]. cbn. apply IH; [intros E; specialize (Nv E); inversion Nv; assumption|].
  apply at_image_step; [|exact A]. intros Q E. specialize (Nv E). inversion Nv; subst. contradiction.
Qed.
Lemma at_view_new v : at_view v None new_rsystem. Proof. split; [reflexivity|intros e []]. Qed.
Lemma at_image_new v : at_image v None new_rsystem. Proof. split; [reflexivity|intros e []]. Qed.
Lemma fail_app devices hs s a b : fail_run devices hs s (a ++ b) = fail_run devices hs (fail_run devices hs s a) b.
Proof. apply fold_left_app. Qed.
Lemma view_again devices hs v x s rc cx img l : at_view v (Some x) s ->
  let s' := fst (fst (fail_step devices hs s (RCreateView rc cx v img) l)) in
  snd (fail_step devices hs s (RCreateView rc cx v img) l) = Returned x /\ driver_log s' = driver_log s /\ snd (fst (fail_step devices hs s (RCreateView rc cx v img) l)) = l.
Proof. intros [E _]. cbn [fail_step]. unfold cf_createImageView, rf_createImageView. rewrite E. repeat split. Qed.
Lemma image_again devices hs i p s rc cx l : at_image i (Some p) s ->
  let s' := fst (fst (fail_step devices hs s (RCreateImage rc cx i) l)) in
  snd (fail_step devices hs s (RCreateImage rc cx i) l) = Returned (fst p) /\ driver_log s' = driver_log s /\ snd (fst (fail_step devices hs s (RCreateImage rc cx i) l)) = l.
Proof. intros [E _]. cbn [fail_step]. unfold cf_createImage, rf_createImage. rewrite E. destruct p. repeat split. Qed.
