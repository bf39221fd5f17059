From Verif Require Import Spec_Fail Proof_Layout Proof_Res Proof_Res2 Proof_Res3 Proof_Res4 Proof_Fail.
From Coq Require Import Lia.
Local Open Scope N_scope.

(* ------------------------------------------------------------------ the log, for every history *)
Lemma finv_fold {A} (f : rhandler -> A -> rhandler) : (forall h a, finv h -> finv (f h a)) -> forall l h, finv h -> finv (fold_left f l h).
Proof. intros F. induction l as [|a r IH]; intros h I; [exact I|]. cbn. apply IH, F, I. Qed.
Lemma finv_cc_destroy h c : finv h -> finv (cc_destroy h c).
Proof.
  intros I. unfold cc_destroy. cbv zeta.
  apply finv_fold; [intros; apply finv_destroyBuffer; assumption|]. apply finv_fold; [intros; apply finv_destroySampler; assumption|].
  apply finv_fold; [intros; apply finv_destroyImage; assumption|]. apply finv_fold; [intros; apply finv_destroyView; assumption|]. exact I.
Qed.
Lemma finv_any f cs rc : (forall h c, finv h -> finv (fst (f h c))) -> forall order h, finv h -> finv (fst (destroy_any f h cs rc order)).
Proof.
  intros F. induction order as [|cx r IH]; intros h I; [exact I|]. cbn. pose proof (F h (get_cache (rc, cx) cs) I) as G.
  destruct (f h (get_cache (rc, cx) cs)) as [h1 b]. cbn in G. destruct b; [exact G|]. apply IH, G.
Qed.
Lemma finv_cc_image h c i : finv h -> finv (fst (cc_destroyImage h c i)).
Proof. intros I. unfold cc_destroyImage. destruct (mfind _ _); [apply finv_destroyImage, I|exact I]. Qed.
Lemma finv_cc_view h c i : finv h -> finv (fst (cc_destroyImageView h c i)).
Proof. intros I. unfold cc_destroyImageView. destruct (mfind _ _); [apply finv_destroyView, I|exact I]. Qed.
Lemma finv_step devices hs s o l : finv (sy_handler s) -> finv (sy_handler (fst (fst (fail_step devices hs s o l)))).
Proof.
  intros I. destruct o; cbn [fail_step res_step].
  - unfold cf_createImage. pose proof (finv_createImage (sy_handler s) (devices cx) img l I) as G.
    destruct (rf_createImage _ _ _ _) as [[h l'] [[vk c]| |]]; exact G.
  - unfold cf_createImageView. pose proof (finv_createView (sy_handler s) (devices cx) v img l I) as G.
    destruct (rf_createImageView _ _ _ _ _) as [[h l'] [[vk c]| |]]; exact G.
  - pose proof (finv_cc_image (sy_handler s) (get_cache (rc, cx) (sy_caches s)) img I) as G. destruct (cc_destroyImage _ _ _) as [h b]. exact G.
  - pose proof (finv_cc_view (sy_handler s) (get_cache (rc, cx) (sy_caches s)) v I) as G. destruct (cc_destroyImageView _ _ _) as [h b]. exact G.
  - pose proof (finv_any (fun h c => cc_destroyImage h c img) (sy_caches s) rc (fun h c => finv_cc_image h c img) order _ I) as G. destruct (destroy_any _ _ _ _ _) as [h b]. exact G.
  - pose proof (finv_any (fun h c => cc_destroyImageView h c v) (sy_caches s) rc (fun h c => finv_cc_view h c v) order _ I) as G. destruct (destroy_any _ _ _ _ _) as [h b]. exact G.
  - unfold cf_createSampler. destruct (mfind _ _); [exact I|]. pose proof (finv_createSampler (sy_handler s) d l I) as G.
    destruct (rf_createSampler _ _ _) as [[h l'] [vk| |]]; exact G.
  - unfold cf_createQuad. destruct (mfind _ _) as [x|]; [exact I|]. pose proof (finv_createQuad (sy_handler s) (devices cx) q l I) as G.
    destruct (rf_createQuad _ _ _ _) as [[h l'] [vk| |]]; exact G.
  - cbn [fst snd sy_handler]. apply finv_fold; [|exact I]. intros h a Ia. destruct (N.eqb _ _); [apply finv_cc_destroy|]; exact Ia.
Qed.
Lemma finv_run devices hs ops : forall s, finv (sy_handler s) -> finv (sy_handler (fail_run devices hs s ops)).
Proof. unfold fail_run. induction ops as [|o r IH]; intros s I; [exact I|]. cbn. apply IH, finv_step, I. Qed.

(* ------------------------------------------------------------------ no refusal *)
Lemma ask_accepts l : accepts l -> exists l', ask l = (true, l') /\ accepts l'.
Proof.
  intros A. destruct l as [|b r]; [exists []; split; [reflexivity|exact A]|]. exists r. rewrite (A b (or_introl eq_refl)).
  split; [reflexivity|]. intros x H. apply A. right. exact H.
Qed.
Lemma mput_twice {V} k (a b : V) m : mput k b (mput k a m) = mput k b m.
Proof.
  induction m as [|[k' v'] m IH]; cbn [mput]; [rewrite N.eqb_refl; reflexivity|].
  destruct (N.eqb k k') eqn:E; cbn [mput]; [rewrite N.eqb_refl; reflexivity|]. destruct (N.ltb k k') eqn:L; cbn [mput]; [rewrite N.eqb_refl; reflexivity|].
  rewrite E, L, IH. reflexivity.
Qed.
Lemma accept_image h dev i l : accepts l -> exists l', accepts l' /\ rf_createImage h dev i l = (fst (rh_createImage h dev i), l', Returned (snd (rh_createImage h dev i))).
Proof.
  intros A. unfold rf_createImage, rh_createImage, try_create. destruct (mfind i (rh_images h)) as [[v m]|]; [exists l; auto|].
  destruct (ask_accepts l A) as (l1 & -> & A1). cbn [vk_create]. destruct dev; [|exists l1; auto].
  destruct (ask_accepts l1 A1) as (l2 & -> & A2). cbn [vk_create]. destruct (ask_accepts l2 A2) as (l3 & -> & A3). exists l3. auto.
Qed.
Lemma create_image_views h dev i w : rh_createImage (set_rviews h w) dev i = (set_rviews (fst (rh_createImage h dev i)) w, snd (rh_createImage h dev i)).
Proof. unfold rh_createImage. cbn [rh_images set_rviews]. destruct (mfind i (rh_images h)) as [[v m]|]; [reflexivity|]. cbn [vk_create]. destruct dev; reflexivity. Qed.
Lemma create_image_keeps_views h dev i : rh_views (fst (rh_createImage h dev i)) = rh_views h.
Proof. unfold rh_createImage. destruct (mfind i (rh_images h)) as [[v m]|]; [reflexivity|]. cbn [vk_create]. destruct dev; reflexivity. Qed.
Lemma accept_view h dev v i l : accepts l ->
  exists l', accepts l' /\ rf_createImageView h dev v i l = (fst (rh_createImageView h dev v i), l', Returned (snd (rh_createImageView h dev v i))).
Proof.
  intros A. unfold rf_createImageView, rh_createImageView, try_create. destruct (mfind v (rh_views h)) as [x|]; [exists l; auto|].
  destruct (accept_image (set_rviews h (mput v 0 (rh_views h))) dev i l A) as (l1 & A1 & ->).
  destruct (ask_accepts l1 A1) as (l2 & E & A2). exists l2. split; [exact A2|]. rewrite create_image_views. cbn [fst snd].
  pose proof (create_image_keeps_views h dev i) as K. destruct (rh_createImage h dev i) as [h1 [vk cr]]. cbn [fst snd] in K |- *. rewrite E. cbn [vk_create fst snd].
  unfold set_rviews. cbn [rh_views rh_images rh_samplers rh_buffers rh_next rh_log]. rewrite K, mput_twice. reflexivity.
Qed.
Lemma accept_sampler h d l : accepts l -> exists l', accepts l' /\ rf_createSampler h d l = (fst (rh_createSampler h d), l', Returned (snd (rh_createSampler h d))).
Proof. intros A. unfold rf_createSampler, rh_createSampler, try_create. destruct (ask_accepts l A) as (l1 & -> & A1). exists l1. auto. Qed.
Lemma accept_quad h dev q l : accepts l -> exists l', accepts l' /\ rf_createQuad h dev q l = (fst (rh_createQuad h dev q), l', Returned (snd (rh_createQuad h dev q))).
Proof.
  intros A. unfold rf_createQuad, rh_createQuad, try_create. destruct (ask_accepts l A) as (l1 & -> & A1). cbn [vk_create]. destruct dev; [|exists l1; auto].
  destruct (ask_accepts l1 A1) as (l2 & -> & A2). cbn [vk_create]. destruct (ask_accepts l2 A2) as (l3 & -> & A3). destruct (ask_accepts l3 A3) as (l4 & -> & A4). exists l4. auto.
Qed.
Lemma accept_step devices hs s o l : sinv hs s -> accepts l ->
  exists l', accepts l' /\ fail_step devices hs s o l = (fst (res_step devices hs s o), l', Returned (snd (res_step devices hs s o))).
Proof.
  intros I A. destruct o; cbn [fail_step res_step].
  - unfold cf_createImage, cc_createImage. destruct (accept_image (sy_handler s) (devices cx) img l A) as (l' & A' & ->). exists l'. split; [exact A'|].
    destruct (rh_createImage _ _ _) as [h1 [vk cr]]. reflexivity.
  - unfold cf_createImageView, cc_createImageView. destruct (accept_view (sy_handler s) (devices cx) v img l A) as (l' & A' & ->). exists l'. split; [exact A'|].
    destruct (rh_createImageView _ _ _ _) as [h1 [vk cr]]. reflexivity.
  - exists l. split; [exact A|]. destruct (cc_destroyImage _ _ _). reflexivity.
  - exists l. split; [exact A|]. destruct (cc_destroyImageView _ _ _). reflexivity.
  - exists l. split; [exact A|]. destruct (destroy_any _ _ _ _ _). reflexivity.
  - exists l. split; [exact A|]. destruct (destroy_any _ _ _ _ _). reflexivity.
  - unfold cf_createSampler, cc_createSampler. destruct (mfind _ _) as [x|]; [exists l; auto|].
    destruct (accept_sampler (sy_handler s) d l A) as (l' & A' & ->). exists l'. split; [exact A'|]. destruct (rh_createSampler _ _) as [h1 vk]. reflexivity.
  - unfold cf_createQuad, cc_createQuad. destruct (mfind _ _) as [x|] eqn:E.
    + exists l. split; [exact A|]. cbn [fst snd]. apply mfind_in in E. apply (ref_get cc_buffers (rc, cx) _ _ x eq_refl (si_keys _ _ I)) in E.
      destruct (si_buf _ _ I _ _ _ E) as (q1 & [Hc _] & _). assert (P : 0 < x). { apply (li_bound _ _ (in_log _ (si_h _ _ I))). apply in_created in Hc. exact Hc. }
      destruct (N.eqb_spec x 0); [lia|reflexivity].
    + destruct (accept_quad (sy_handler s) (devices cx) q l A) as (l' & A' & ->). exists l'. split; [exact A'|]. destruct (rh_createQuad _ _ _) as [h1 vk]. reflexivity.
  - exists l. split; [exact A|reflexivity].
Qed.
Lemma accept_run devices hs : forall ops s, sinv hs s -> Forall (fun o => accepts (snd o)) ops -> fail_run devices hs s ops = res_run devices hs s (map fst ops).
Proof.
  unfold fail_run, res_run. induction ops as [|o r IH]; intros s I F; [reflexivity|]. inversion F; subst. cbn.
  destruct (accept_step devices hs s (fst o) (snd o) I H1) as (l' & _ & ->). cbn [fst]. apply IH; [apply sinv_step, I|assumption].
Qed.

(* ------------------------------------------------------------------ a call throws when it meets a refusal *)
Lemma ask_used l b l' : ask l = (b, l') -> exists used, l = used ++ l' /\ (b = false <-> In false used) /\ (b = true -> ~ In false used).
Proof.
  destruct l as [|[|] r]; cbn; intros [= <- <-]; [exists []|exists [true]|exists [false]]; (split; [reflexivity|]); cbn; intuition congruence.
Qed.
Definition met (l l' : answers) (bad : bool) : Prop := exists used, l = used ++ l' /\ (In false used <-> bad = true).
Lemma met_refl l : met l l false.
Proof. exists []. split; [reflexivity|]. cbn. split; [tauto|discriminate]. Qed.
Lemma met_ask l b l' : ask l = (b, l') -> met l l' (negb b).
Proof.
  intros H. destruct (ask_used l b l' H) as (u & -> & [A B] & C). exists u. split; [reflexivity|]. destruct b; cbn; split; intros; try discriminate; auto.
  exfalso. apply C; auto.
Qed.
Lemma met_trans a b c x y : met a b x -> met b c y -> met a c (orb x y).
Proof.
  intros (u & -> & A) (w & -> & B). exists (u ++ w). split; [rewrite app_assoc; reflexivity|]. rewrite in_app_iff, A, B, Bool.orb_true_iff. reflexivity.
Qed.
Definition threw {A} (o : outcome A) : bool := match o with Threw => true | _ => false end.
Lemma met_image h dev i l : met l (snd (fst (rf_createImage h dev i l))) (threw (snd (rf_createImage h dev i l))).
Proof.
  unfold rf_createImage, try_create. destruct (mfind i (rh_images h)) as [[v m]|]; [apply met_refl|].
  destruct (ask l) as [b l1] eqn:E1. apply met_ask in E1. destruct b; cbn [vk_create]; [|exact E1]. destruct dev; [|exact E1].
  destruct (ask l1) as [b l2] eqn:E2. apply met_ask in E2. pose proof (met_trans _ _ _ _ _ E1 E2) as E3. destruct b; cbn [vk_create]; [|exact E3].
  destruct (ask l2) as [b l3] eqn:E4. apply met_ask in E4. pose proof (met_trans _ _ _ _ _ E3 E4) as E5. destruct b; exact E5.
Qed.
Lemma image_defined h dev i l : snd (rf_createImage h dev i l) <> Undefined.
Proof.
  unfold rf_createImage, try_create. destruct (mfind i (rh_images h)) as [[v m]|]; [discriminate|]. destruct (ask l) as [[|] l1]; cbn [vk_create]; [|discriminate].
  destruct dev; [|discriminate]. destruct (ask l1) as [[|] l2]; cbn [vk_create]; [|discriminate]. destruct (ask l2) as [[|] l3]; discriminate.
Qed.
Lemma met_view h dev v i l : met l (snd (fst (rf_createImageView h dev v i l))) (threw (snd (rf_createImageView h dev v i l))) /\ snd (rf_createImageView h dev v i l) <> Undefined.
Proof.
  unfold rf_createImageView, try_create. destruct (mfind v (rh_views h)) as [x|]; [split; [apply met_refl|discriminate]|].
  set (h0 := set_rviews h _). pose proof (met_image h0 dev i l) as M. pose proof (image_defined h0 dev i l) as D.
  destruct (rf_createImage h0 dev i l) as [[h1 l1] r]. cbn [fst snd] in M, D. destruct r as [p| |]; [|split; [exact M|discriminate]|contradiction D; reflexivity].
  destruct (ask l1) as [b l2] eqn:E. apply met_ask in E. pose proof (met_trans _ _ _ _ _ M E) as E2. destruct b; cbn [vk_create]; (split; [exact E2|discriminate]).
Qed.
Lemma met_sampler h d l : met l (snd (fst (rf_createSampler h d l))) (threw (snd (rf_createSampler h d l))) /\ snd (rf_createSampler h d l) <> Undefined.
Proof. unfold rf_createSampler, try_create. destruct (ask l) as [b l1] eqn:E1. apply met_ask in E1. destruct b; (split; [exact E1|discriminate]). Qed.
Lemma met_quad h dev q l : met l (snd (fst (rf_createQuad h dev q l))) (threw (snd (rf_createQuad h dev q l))) /\ snd (rf_createQuad h dev q l) <> Undefined.
Proof.
  unfold rf_createQuad, try_create. destruct (ask l) as [b l1] eqn:E1. apply met_ask in E1. destruct b; cbn [vk_create]; [|split; [exact E1|discriminate]].
  destruct dev; [|split; [exact E1|discriminate]].
  destruct (ask l1) as [b l2] eqn:E2. apply met_ask in E2. pose proof (met_trans _ _ _ _ _ E1 E2) as E3. destruct b; cbn [vk_create]; [|split; [exact E3|discriminate]].
  destruct (ask l2) as [b l3] eqn:E4. apply met_ask in E4. pose proof (met_trans _ _ _ _ _ E3 E4) as E5. destruct b; [|split; [exact E5|discriminate]].
  destruct (ask l3) as [b l4] eqn:E6. apply met_ask in E6. pose proof (met_trans _ _ _ _ _ E5 E6) as E7. destruct b; (split; [exact E7|discriminate]).
Qed.
Lemma met_step devices hs s o l : met l (snd (fst (fail_step devices hs s o l))) (threw (snd (fail_step devices hs s o l))).
Proof.
  destruct o; cbn [fail_step res_step]; try (destruct (cc_destroyImage _ _ _)); try (destruct (cc_destroyImageView _ _ _)); try (destruct (destroy_any _ _ _ _ _)); try apply met_refl.
  - unfold cf_createImage. pose proof (met_image (sy_handler s) (devices cx) img l) as M. pose proof (image_defined (sy_handler s) (devices cx) img l) as D.
    destruct (rf_createImage _ _ _ _) as [[h1 l1] r]. destruct r as [[vk cr]| |]; [exact M|exact M|contradiction D; reflexivity].
  - unfold cf_createImageView. pose proof (met_view (sy_handler s) (devices cx) v img l) as [M D].
    destruct (rf_createImageView _ _ _ _ _) as [[h1 l1] r]. destruct r as [[vk cr]| |]; [exact M|exact M|contradiction D; reflexivity].
  - unfold cf_createSampler. destruct (mfind _ _) as [x|]; [apply met_refl|]. pose proof (met_sampler (sy_handler s) d l) as [M D].
    destruct (rf_createSampler _ _ _) as [[h1 l1] r]. destruct r as [vk| |]; [exact M|exact M|contradiction D; reflexivity].
  - unfold cf_createQuad. destruct (mfind _ _) as [x|]; [cbn [fst snd]; destruct (N.eqb x 0); apply met_refl|]. pose proof (met_quad (sy_handler s) (devices cx) q l) as [M D].
    destruct (rf_createQuad _ _ _ _) as [[h1 l1] r]. destruct r as [vk| |]; [exact M|exact M|contradiction D; reflexivity].
Qed.
Lemma threw_spec {A} (o : outcome A) : threw o = true <-> o = Threw.
Proof. destruct o; split; cbn; congruence. Qed.
