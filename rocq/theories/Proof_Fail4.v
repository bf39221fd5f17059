From Verif Require Import Spec_Fail Proof_Layout Proof_Res Proof_Res2 Proof_Res3 Proof_Res4 Proof_Fail Proof_Fail2 Proof_Fail3.
From Coq Require Import Lia.
Local Open Scope N_scope.

(* ------------------------------------------------------------------ a request touches nothing but its object, and destroys nothing *)
Definition only_creates (a b : list event) : Prop := exists more, b = a ++ more /\ destroyed more = [].
Lemma oc_refl a : only_creates a a. Proof. exists []. rewrite app_nil_r. split; reflexivity. Qed.
Lemma oc_one a o x : only_creates a (a ++ [Created o x]). Proof. exists [Created o x]. split; reflexivity. Qed.
Lemma oc_trans a b c : only_creates a b -> only_creates b c -> only_creates a c.
Proof. intros (m & -> & D) (n & -> & F). exists (m ++ n). rewrite app_assoc. split; [reflexivity|]. unfold destroyed in *. rewrite flat_map_app, D, F. reflexivity. Qed.
Lemma oc_image h dev i l : only_creates (rh_log h) (rh_log (fst (fst (rf_createImage h dev i l)))).
Proof.
  unfold rf_createImage, try_create. destruct (mfind i (rh_images h)) as [[v m]|]; [apply oc_refl|].
  destruct (ask l) as [[|] l1]; cbn [vk_create]; [|apply oc_refl]. destruct dev; [|apply oc_one]. destruct (ask l1) as [[|] l2]; cbn [vk_create]; [|apply oc_one].
  destruct (ask l2) as [b l3]. cbn [fst rh_log set_rimages]. eapply oc_trans; apply oc_one.
Qed.
Lemma oc_view h dev v i l : only_creates (rh_log h) (rh_log (fst (fst (rf_createImageView h dev v i l)))).
Proof.
  unfold rf_createImageView. destruct (mfind v (rh_views h)); [apply oc_refl|]. set (h0 := set_rviews h _). pose proof (oc_image h0 dev i l) as O.
  destruct (rf_createImage h0 dev i l) as [[h1 l1] r]. cbn [fst] in O. change (rh_log h0) with (rh_log h) in O. destruct r; try exact O.
  unfold try_create. destruct (ask l1) as [[|] l2]; cbn [vk_create]; [|exact O]. cbn [fst rh_log set_rviews]. eapply oc_trans; [exact O|apply oc_one].
Qed.
Lemma oc_sampler h d l : only_creates (rh_log h) (rh_log (fst (fst (rf_createSampler h d l)))).
Proof. unfold rf_createSampler, try_create. destruct (ask l) as [[|] l1]; cbn; [apply oc_one|apply oc_refl]. Qed.
Lemma oc_quad h dev q l : only_creates (rh_log h) (rh_log (fst (fst (rf_createQuad h dev q l)))).
Proof.
  unfold rf_createQuad, try_create. destruct (ask l) as [[|] l1]; cbn [vk_create]; [|apply oc_refl]. destruct dev; [|apply oc_one].
  destruct (ask l1) as [[|] l2]; cbn [vk_create]; [|apply oc_one]. destruct (ask l2) as [[|] l3]; [|cbn; eapply oc_trans; apply oc_one].
  destruct (ask l3) as [[|] l4]; cbn; eapply oc_trans; apply oc_one.
Qed.
Lemma oc_step devices hs s o l : is_request o -> only_creates (driver_log s) (driver_log (fst (fst (fail_step devices hs s o l)))).
Proof.
  unfold driver_log. destruct o; cbn [is_request]; try tauto; intros _; cbn [fail_step].
  - unfold cf_createImage. pose proof (oc_image (sy_handler s) (devices cx) img l) as O. destruct (rf_createImage _ _ _ _) as [[h1 l1] [[vk cr]| |]]; exact O.
  - unfold cf_createImageView. pose proof (oc_view (sy_handler s) (devices cx) v img l) as O. destruct (rf_createImageView _ _ _ _ _) as [[h1 l1] [[vk cr]| |]]; exact O.
  - unfold cf_createSampler. destruct (mfind _ _); [apply oc_refl|]. pose proof (oc_sampler (sy_handler s) d l) as O. destruct (rf_createSampler _ _ _) as [[h1 l1] [vk| |]]; exact O.
  - unfold cf_createQuad. destruct (mfind _ _); [apply oc_refl|]. pose proof (oc_quad (sy_handler s) (devices cx) q l) as O. destruct (rf_createQuad _ _ _ _) as [[h1 l1] [vk| |]]; exact O.
Qed.
Lemma get_put_f (f : ccache -> nmap N) a k k' c cs : (k = k' -> mfind a (f c) = mfind a (f (get_cache k cs))) -> mfind a (f (get_cache k (put_cache k' c cs))) = mfind a (f (get_cache k cs)).
Proof.
  intros H. destruct (ckey_eqb_spec k k') as [->|Nk]; [rewrite get_put_same; apply H; reflexivity|]. rewrite get_put_other by exact Nk. reflexivity.
Qed.
Lemma entry_step devices hs s o l k r : is_request o -> ~ concerns hs o k r -> entry (fst (fst (fail_step devices hs s o l))) k r = entry s k r.
Proof.
  destruct o; cbn [is_request]; try tauto; intros _ Nc; cbn [fail_step].
  - unfold cf_createImage. pose proof (rfi_views (sy_handler s) (devices cx) img l) as V. pose proof (fun j => rfi_image_other (sy_handler s) (devices cx) img j l) as W.
    destruct (rf_createImage _ _ _ _) as [[h1 l1] [[vk cr]| |]]; cbn [fst] in V, W; destruct r; cbn [entry fst sy_handler sy_caches concerns] in Nc |- *;
      try (rewrite W by congruence; reflexivity); try (rewrite V; reflexivity); apply get_put_f; intros ->; try destruct cr; reflexivity.
  - unfold cf_createImageView. pose proof (fun w => rfv_view_other (sy_handler s) (devices cx) v img w l) as V. pose proof (fun j => rfv_image_other (sy_handler s) (devices cx) v img j l) as W.
    destruct (rf_createImageView _ _ _ _ _) as [[h1 l1] [[vk cr]| |]]; cbn [fst] in V, W; destruct r; cbn [entry fst sy_handler sy_caches concerns] in Nc |- *;
      try (rewrite W by congruence; reflexivity); try (rewrite V by congruence; reflexivity); apply get_put_f; intros ->; try destruct cr; reflexivity.
  - unfold cf_createSampler. destruct (mfind (samplerHash hs d) _).
    { destruct r; cbn [entry fst sy_handler sy_caches]; try reflexivity; apply get_put_f; intros ->; reflexivity. }
    destruct (rfs_other (sy_handler s) d l) as [V W].
    destruct (rf_createSampler _ _ _) as [[h1 l1] [vk| |]]; cbn [fst] in V, W; destruct r; cbn [entry fst sy_handler sy_caches concerns] in Nc |- *; rewrite ?V, ?W; try reflexivity;
      apply get_put_f; intros ->; cbn; try reflexivity; rewrite mfind_mput; destruct (N.eqb_spec hash (samplerHash hs d)) as [->|]; try reflexivity; exfalso; apply Nc; split; reflexivity.
  - unfold cf_createQuad. destruct (mfind (quadHash q) _).
    { destruct r; cbn [entry fst sy_handler sy_caches]; try reflexivity; apply get_put_f; intros ->; reflexivity. }
    destruct (rfq_other (sy_handler s) (devices cx) q l) as [V W].
    destruct (rf_createQuad _ _ _ _) as [[h1 l1] [vk| |]]; cbn [fst] in V, W; destruct r; cbn [entry fst sy_handler sy_caches concerns] in Nc |- *; rewrite ?V, ?W; try reflexivity;
      apply get_put_f; intros ->; cbn; try reflexivity; rewrite mfind_mput; destruct (N.eqb_spec hash (quadHash q)) as [->|]; try reflexivity; exfalso; apply Nc; split; reflexivity.
Qed.

(* ------------------------------------------------------------------ samplers and quads of a cache *)
Lemma keep_fail (f : ccache -> nmap N) hs devices s o l k a x : (f = cc_samplers \/ f = cc_buffers) -> o <> RDestroyCache (fst k) ->
  mfind a (f (get_cache k (sy_caches s))) = Some x -> mfind a (f (get_cache k (sy_caches (fst (fst (fail_step devices hs s o l)))))) = Some x.
Proof.
  intros Hf Ho H.
  assert (P : forall k' c, (k' = k -> mfind a (f c) = Some x) -> mfind a (f (get_cache k (put_cache k' c (sy_caches s)))) = Some x).
  { intros k' c Hc. destruct (ckey_eqb_spec k' k) as [->|Hk]; [rewrite get_put_same; apply Hc; reflexivity|]. rewrite get_put_other by congruence. exact H. }
  destruct o; try (pose proof (keep_step f hs devices s) as K; match goal with |- context [fail_step _ _ _ ?o _] => specialize (K o k a x Hf Ho H) end;
    cbn [fail_step]; match goal with |- context [res_step ?d ?h ?s ?o] => destruct (res_step d h s o) end; exact K); cbn [fail_step].
  - unfold cf_createImage. destruct (rf_createImage _ _ _ _) as [[h1 l1] [[vk cr]| |]]; cbn; apply P; intros ->; try exact H. destruct Hf as [-> | ->], cr; exact H.
  - unfold cf_createImageView. destruct (rf_createImageView _ _ _ _ _) as [[h1 l1] [[vk cr]| |]]; cbn; apply P; intros ->; try exact H. destruct Hf as [-> | ->], cr; exact H.
  - unfold cf_createSampler. destruct (mfind (samplerHash hs d) _) as [y|] eqn:F; [cbn; apply P; intros ->; exact H|].
    destruct (rf_createSampler _ _ _) as [[h1 l1] [vk| |]]; cbn; apply P; intros E; destruct Hf as [-> | ->]; cbn; rewrite E in *; try exact H;
      rewrite mfind_mput; destruct (N.eqb_spec a (samplerHash hs d)) as [->|]; congruence.
  - unfold cf_createQuad. destruct (mfind (quadHash q) _) as [y|] eqn:F; [cbn; apply P; intros ->; exact H|].
    destruct (rf_createQuad _ _ _ _) as [[h1 l1] [vk| |]]; cbn; apply P; intros E; destruct Hf as [-> | ->]; cbn; rewrite E in *; try exact H;
      rewrite mfind_mput; destruct (N.eqb_spec a (quadHash q)) as [->|]; congruence.
Qed.
Lemma keep_fail_run (f : ccache -> nmap N) hs devices k a x : (f = cc_samplers \/ f = cc_buffers) -> forall ops s,
  keeps_cache (fst k) (map fst ops) -> mfind a (f (get_cache k (sy_caches s))) = Some x -> mfind a (f (get_cache k (sy_caches (fail_run devices hs s ops)))) = Some x.
Proof.
  intros Hf. unfold fail_run. induction ops as [|o r IH]; intros s K H; [exact H|]. cbn. inversion K; subst. apply IH; [assumption|]. apply keep_fail; assumption.
Qed.
Lemma sampler_refused devices hs s rc cx d l : snd (fail_step devices hs s (RCreateSampler rc cx d) l) = Threw ->
  mfind (samplerHash hs d) (cc_samplers (get_cache (rc, cx) (sy_caches (fst (fst (fail_step devices hs s (RCreateSampler rc cx d) l)))))) = Some 0.
Proof.
  cbn [fail_step]. unfold cf_createSampler. destruct (mfind (samplerHash hs d) _); [discriminate|]. destruct (rf_createSampler _ _ _) as [[h1 l1] [vk| |]]; cbn; intros; try discriminate;
    rewrite get_put_same; cbn; apply mfind_mput_same.
Qed.
Lemma quad_refused devices hs s rc cx q l : snd (fail_step devices hs s (RCreateQuad rc cx q) l) = Threw ->
  mfind (quadHash q) (cc_buffers (get_cache (rc, cx) (sy_caches (fst (fst (fail_step devices hs s (RCreateQuad rc cx q) l)))))) = Some 0.
Proof.
  cbn [fail_step]. unfold cf_createQuad. destruct (mfind (quadHash q) _) as [x|]; [destruct (N.eqb x 0); discriminate|].
  destruct (rf_createQuad _ _ _ _) as [[h1 l1] [vk| |]]; cbn; intros; try discriminate; rewrite get_put_same; cbn; apply mfind_mput_same.
Qed.
Lemma sampler_same devices hs s rc cx d l x : mfind (samplerHash hs d) (cc_samplers (get_cache (rc, cx) (sy_caches s))) = Some x ->
  snd (fail_step devices hs s (RCreateSampler rc cx d) l) = Returned x /\ driver_log (fst (fst (fail_step devices hs s (RCreateSampler rc cx d) l))) = driver_log s.
Proof. intros H. cbn [fail_step]. unfold cf_createSampler. rewrite H. split; reflexivity. Qed.
Lemma quad_same devices hs s rc cx q l : mfind (quadHash q) (cc_buffers (get_cache (rc, cx) (sy_caches s))) = Some 0 ->
  snd (fail_step devices hs s (RCreateQuad rc cx q) l) = Undefined.
Proof. intros H. cbn [fail_step]. unfold cf_createQuad. rewrite H. reflexivity. Qed.
(* a new cache asks again *)
Lemma get_gone k cs : get_cache k (filter (fun e : ckey * ccache => negb (N.eqb (fst (fst e)) (fst k))) cs) = empty_ccache.
Proof.
  induction cs as [|[k' c] r IH]; [reflexivity|]. cbn. destruct (N.eqb_spec (fst k') (fst k)) as [E|E]; cbn; [exact IH|].
  destruct (ckey_eqb_spec k k') as [->|]; [contradiction|exact IH].
Qed.

(* ------------------------------------------------------------------ memory of an image is allocated only when the handler does not know the image *)
Definition mem_in (i : N) (l : list event) : Prop := exists m, In (Created (OImageMemory i) m) l.
Lemma mem_snoc i l e : (forall m, e <> Created (OImageMemory i) m) -> mem_in i (l ++ [e]) -> mem_in i l.
Proof. intros N (m & H). apply in_app_or in H. destruct H as [H|[H|[]]]; [exists m; exact H|]. destruct (N m H). Qed.
Lemma mem_image h dev j l i : mem_in i (rh_log (fst (fst (rf_createImage h dev j l)))) -> mem_in i (rh_log h) \/ (i = j /\ mfind j (rh_images h) = None).
Proof.
  unfold rf_createImage, try_create. destruct (mfind j (rh_images h)) as [[v m]|]; [auto|].
  destruct (ask l) as [[|] l1]; cbn [vk_create]; [|auto]. destruct dev; [|cbn; intros H; left; apply mem_snoc in H; [exact H|discriminate]].
  destruct (ask l1) as [[|] l2]; cbn [vk_create]; [|cbn; intros H; left; apply mem_snoc in H; [exact H|discriminate]].
  destruct (ask l2) as [b l3]. cbn [fst rh_log set_rimages]. destruct (N.eq_dec i j) as [->|Nj]; [auto|].
  intros H. left. apply mem_snoc in H; [|congruence]. apply mem_snoc in H; [exact H|discriminate].
Qed.
Lemma mem_view h dev v j l i : mem_in i (rh_log (fst (fst (rf_createImageView h dev v j l)))) -> mem_in i (rh_log h) \/ (i = j /\ mfind j (rh_images h) = None).
Proof.
  unfold rf_createImageView. destruct (mfind v (rh_views h)); [auto|]. set (h0 := set_rviews h _). pose proof (mem_image h0 dev j l i) as M.
  destruct (rf_createImage h0 dev j l) as [[h1 l1] r]. cbn [fst] in M. destruct r; try exact M.
  unfold try_create. destruct (ask l1) as [[|] l2]; cbn [vk_create]; [|exact M]. cbn [fst rh_log set_rviews]. intros H. apply M. apply mem_snoc in H; [exact H|discriminate].
Qed.
Lemma mem_sampler h d l i : mem_in i (rh_log (fst (fst (rf_createSampler h d l)))) -> mem_in i (rh_log h).
Proof. unfold rf_createSampler, try_create. destruct (ask l) as [[|] l1]; cbn; [|auto]. intros H. apply mem_snoc in H; [exact H|discriminate]. Qed.
Lemma mem_quad h dev q l i : mem_in i (rh_log (fst (fst (rf_createQuad h dev q l)))) -> mem_in i (rh_log h).
Proof.
  unfold rf_createQuad, try_create. destruct (ask l) as [[|] l1]; cbn [vk_create]; [|auto]. destruct dev; [|cbn; intros H; apply mem_snoc in H; [exact H|discriminate]].
  destruct (ask l1) as [[|] l2]; cbn [vk_create]; [|cbn; intros H; apply mem_snoc in H; [exact H|discriminate]].
  destruct (ask l2) as [[|] l3]; [destruct (ask l3) as [[|] l4]|]; cbn; intros H; apply mem_snoc in H; try discriminate; apply mem_snoc in H; try discriminate; exact H.
Qed.
Lemma mem_vkd i h y : mem_in i (rh_log (vk_destroy h y)) -> mem_in i (rh_log h).
Proof. unfold vk_destroy. destruct (N.eqb y 0); [auto|]. cbn. intros H. apply mem_snoc in H; [exact H|discriminate]. Qed.
Lemma mem_di i h j : mem_in i (rh_log (rh_destroyImage h j)) -> mem_in i (rh_log h).
Proof. unfold rh_destroyImage. destruct (mfind j _) as [[v m]|]; [|auto]. cbn. intros H. apply mem_vkd in H. apply mem_vkd in H. exact H. Qed.
Lemma mem_dv i h j : mem_in i (rh_log (rh_destroyImageView h j)) -> mem_in i (rh_log h).
Proof. unfold rh_destroyImageView. destruct (mfind j _); [|auto]. cbn. intros H. apply mem_vkd in H. exact H. Qed.
Lemma mem_ds i h j : mem_in i (rh_log (rh_destroySampler h j)) -> mem_in i (rh_log h).
Proof. unfold rh_destroySampler. destruct (mfind j _); [|auto]. cbn. intros H. apply mem_vkd in H. exact H. Qed.
Lemma mem_db i h j : mem_in i (rh_log (rh_destroyVertexBuffer h j)) -> mem_in i (rh_log h).
Proof. unfold rh_destroyVertexBuffer. destruct (mfind j _) as [m|]; [|auto]. cbn. intros H. apply mem_vkd in H. apply mem_vkd in H. exact H. Qed.
Lemma mem_fold {A} i (f : rhandler -> A -> rhandler) : (forall h a, mem_in i (rh_log (f h a)) -> mem_in i (rh_log h)) -> forall l h, mem_in i (rh_log (fold_left f l h)) -> mem_in i (rh_log h).
Proof. intros F. induction l as [|a r IH]; intros h; [auto|]. cbn. intros H. apply F with (a := a), IH, H. Qed.
Lemma mem_cc i h c : mem_in i (rh_log (cc_destroy h c)) -> mem_in i (rh_log h).
Proof.
  unfold cc_destroy. cbv zeta. intros H. apply mem_fold in H; [|intros; eapply mem_db; eassumption]. apply mem_fold in H; [|intros; eapply mem_ds; eassumption].
  apply mem_fold in H; [|intros; eapply mem_di; eassumption]. apply mem_fold in H; [exact H|intros; eapply mem_dv; eassumption].
Qed.
Lemma mem_any i f cs rc : (forall h c, mem_in i (rh_log (fst (f h c))) -> mem_in i (rh_log h)) -> forall order h, mem_in i (rh_log (fst (destroy_any f h cs rc order))) -> mem_in i (rh_log h).
Proof.
  intros F. induction order as [|cx r IH]; intros h; [auto|]. cbn. pose proof (F h (get_cache (rc, cx) cs)) as G. destruct (f h (get_cache (rc, cx) cs)) as [h1 b]. cbn in G.
  destruct b; [exact G|]. intros H. apply G, IH, H.
Qed.
Lemma mem_ci i h c j : mem_in i (rh_log (fst (cc_destroyImage h c j))) -> mem_in i (rh_log h).
Proof. unfold cc_destroyImage. destruct (mfind _ _); [apply mem_di|auto]. Qed.
Lemma mem_cv i h c j : mem_in i (rh_log (fst (cc_destroyImageView h c j))) -> mem_in i (rh_log h).
Proof. unfold cc_destroyImageView. destruct (mfind _ _); [apply mem_dv|auto]. Qed.
Lemma mem_step devices hs i p s o l : at_image i (Some p) s -> mem_in i (driver_log (fst (fst (fail_step devices hs s o l)))) -> mem_in i (driver_log s).
Proof.
  intros [E _]. unfold driver_log. destruct o; cbn [fail_step res_step].
  - unfold cf_createImage. pose proof (mem_image (sy_handler s) (devices cx) img l i) as M.
    destruct (rf_createImage _ _ _ _) as [[h1 l1] [[vk cr]| |]]; intros H; (destruct (M H) as [G|[-> F]]; [exact G|congruence]).
  - unfold cf_createImageView. pose proof (mem_view (sy_handler s) (devices cx) v img l i) as M.
    destruct (rf_createImageView _ _ _ _ _) as [[h1 l1] [[vk cr]| |]]; intros H; (destruct (M H) as [G|[-> F]]; [exact G|congruence]).
  - pose proof (mem_ci i (sy_handler s) (get_cache (rc, cx) (sy_caches s)) img) as M. destruct (cc_destroyImage _ _ _). exact M.
  - pose proof (mem_cv i (sy_handler s) (get_cache (rc, cx) (sy_caches s)) v) as M. destruct (cc_destroyImageView _ _ _). exact M.
  - pose proof (mem_any i (fun h c => cc_destroyImage h c img) (sy_caches s) rc (fun h c => mem_ci i h c img) order (sy_handler s)) as M. destruct (destroy_any _ _ _ _ _). exact M.
  - pose proof (mem_any i (fun h c => cc_destroyImageView h c v) (sy_caches s) rc (fun h c => mem_cv i h c v) order (sy_handler s)) as M. destruct (destroy_any _ _ _ _ _). exact M.
  - unfold cf_createSampler. destruct (mfind (samplerHash hs d) _); [auto|]. pose proof (mem_sampler (sy_handler s) d l i) as M. destruct (rf_createSampler _ _ _) as [[h1 l1] [vk| |]]; exact M.
  - unfold cf_createQuad. destruct (mfind (quadHash q) _); [auto|]. pose proof (mem_quad (sy_handler s) (devices cx) q l i) as M. destruct (rf_createQuad _ _ _ _) as [[h1 l1] [vk| |]]; exact M.
  - cbn [fst snd sy_handler]. intros H. apply mem_fold in H; [exact H|]. intros h a. destruct (N.eqb _ _); [apply mem_cc|auto].
Qed.
Lemma mem_run devices hs i p : forall ops s, at_image i (Some p) s -> mem_in i (driver_log (fail_run devices hs s ops)) -> mem_in i (driver_log s).
Proof.
  unfold fail_run. induction ops as [|o r IH]; intros s A H; [exact H|]. cbn in H. apply (mem_step devices hs i p s (fst o) (snd o) A). apply IH; [|exact H].
  apply at_image_step; [discriminate|exact A].
Qed.
(* an image never named was never given memory *)
Lemma mem_step_never devices hs i s o l : ~ asks_image i o -> mem_in i (driver_log (fst (fst (fail_step devices hs s o l)))) -> mem_in i (driver_log s).
Proof.
  intros Q. unfold driver_log. destruct o; cbn [fail_step res_step asks_image] in *.
  - unfold cf_createImage. pose proof (mem_image (sy_handler s) (devices cx) img l i) as M.
    destruct (rf_createImage _ _ _ _) as [[h1 l1] [[vk cr]| |]]; intros H; (destruct (M H) as [G|[-> F]]; [exact G|congruence]).
  - unfold cf_createImageView. pose proof (mem_view (sy_handler s) (devices cx) v img l i) as M.
    destruct (rf_createImageView _ _ _ _ _) as [[h1 l1] [[vk cr]| |]]; intros H; (destruct (M H) as [G|[-> F]]; [exact G|congruence]).
  - pose proof (mem_ci i (sy_handler s) (get_cache (rc, cx) (sy_caches s)) img) as M. destruct (cc_destroyImage _ _ _). exact M.
  - pose proof (mem_cv i (sy_handler s) (get_cache (rc, cx) (sy_caches s)) v) as M. destruct (cc_destroyImageView _ _ _). exact M.
  - pose proof (mem_any i (fun h c => cc_destroyImage h c img) (sy_caches s) rc (fun h c => mem_ci i h c img) order (sy_handler s)) as M. destruct (destroy_any _ _ _ _ _). exact M.
  - pose proof (mem_any i (fun h c => cc_destroyImageView h c v) (sy_caches s) rc (fun h c => mem_cv i h c v) order (sy_handler s)) as M. destruct (destroy_any _ _ _ _ _). exact M.
  - unfold cf_createSampler. destruct (mfind (samplerHash hs d) _); [auto|]. pose proof (mem_sampler (sy_handler s) d l i) as M. destruct (rf_createSampler _ _ _) as [[h1 l1] [vk| |]]; exact M.
  - unfold cf_createQuad. destruct (mfind (quadHash q) _); [auto|]. pose proof (mem_quad (sy_handler s) (devices cx) q l i) as M. destruct (rf_createQuad _ _ _ _) as [[h1 l1] [vk| |]]; exact M.
  - cbn [fst snd sy_handler]. intros H. apply mem_fold in H; [exact H|]. intros h a. destruct (N.eqb _ _); [apply mem_cc|auto].
Qed.
Lemma mem_run_never devices hs i : forall ops s, never (asks_image i) ops -> mem_in i (driver_log (fail_run devices hs s ops)) -> mem_in i (driver_log s).
Proof.
  unfold fail_run. induction ops as [|o r IH]; intros s Nv H; [exact H|]. inversion Nv; subst. cbn in H. apply (mem_step_never devices hs i s (fst o) (snd o)); [assumption|].
  apply IH; assumption.
Qed.

(* ------------------------------------------------------------------ what a refused first request leaves *)
Lemma refused_view devices hs s rc cx v img l : at_view v None s -> snd (fail_step devices hs s (RCreateView rc cx v img) l) = Threw ->
  at_view v (Some 0) (fst (fst (fail_step devices hs s (RCreateView rc cx v img) l))).
Proof.
  intros [E U]. pose proof (get_none cc_views v (rc, cx) (sy_caches s) eq_refl U) as G. cbn [fail_step]. unfold cf_createImageView, rf_createImageView. rewrite E.
  set (h0 := set_rviews (sy_handler s) _). pose proof (rfi_views h0 (devices cx) img l) as V.
  assert (V0 : mfind v (rh_views h0) = Some 0) by (subst h0; cbn; apply mfind_mput_same).
  destruct (rf_createImage h0 (devices cx) img l) as [[h1 l1] r]. cbn [fst] in V. destruct r; cbn.
  - unfold try_create. destruct (ask l1) as [[|] l2]; cbn; intros H; [discriminate|]. split; cbn; [rewrite V; exact V0|apply unrecorded_put; assumption].
  - intros _. split; cbn; [rewrite V; exact V0|apply unrecorded_put; assumption].
  - intros _. split; cbn; [rewrite V; exact V0|apply unrecorded_put; assumption].
Qed.
Lemma refused_image devices hs s rc cx i l : at_image i None s -> snd (fail_step devices hs s (RCreateImage rc cx i) l) = Threw ->
  exists p, at_image i (Some p) (fst (fst (fail_step devices hs s (RCreateImage rc cx i) l))).
Proof.
  intros [E U]. pose proof (get_none cc_images i (rc, cx) (sy_caches s) eq_refl U) as G. cbn [fail_step]. unfold cf_createImage, rf_createImage, try_create. rewrite E.
  destruct (ask l) as [[|] l1]; cbn [vk_create]; [destruct (devices cx); [destruct (ask l1) as [[|] l2]; cbn [vk_create]; [destruct (ask l2) as [[|] l3]|]|]|]; cbn; intros H;
    try discriminate; eexists; (split; cbn; [apply mfind_mput_same|apply unrecorded_put; assumption]).
Qed.
Lemma refused_image_first devices hs s rc cx i l : at_image i None s -> 
  at_image i (Some (0, 0)) (fst (fst (fail_step devices hs s (RCreateImage rc cx i) (false :: l)))).
Proof.
  intros [E U]. pose proof (get_none cc_images i (rc, cx) (sy_caches s) eq_refl U) as G. cbn [fail_step]. unfold cf_createImage, rf_createImage, try_create. rewrite E.
  cbn. split; cbn; [apply mfind_mput_same|apply unrecorded_put; assumption].
Qed.
Lemma refused_memory devices hs s rc cx i l : at_image i None s -> devices cx = true ->
  at_image i (Some (rh_next (sy_handler s), 0)) (fst (fst (fail_step devices hs s (RCreateImage rc cx i) (true :: false :: l)))) /\
  driver_log (fst (fst (fail_step devices hs s (RCreateImage rc cx i) (true :: false :: l)))) = driver_log s ++ [Created (OImage i) (rh_next (sy_handler s))].
Proof.
  intros [E U] D. pose proof (get_none cc_images i (rc, cx) (sy_caches s) eq_refl U) as G. cbn [fail_step]. unfold cf_createImage, rf_createImage, try_create. rewrite E, D.
  cbn. split; [|reflexivity]. split; cbn; [apply mfind_mput_same|apply unrecorded_put; assumption].
Qed.
