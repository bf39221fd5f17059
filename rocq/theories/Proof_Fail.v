From Verif Require Import Spec_Fail Proof_Layout Proof_Res Proof_Res2 Proof_Res3 Proof_Res4.
From Coq Require Import Lia.
Local Open Scope N_scope.

(* ------------------------------------------------------------------ objects held by the handler *)
Inductive slot := SImage (i : N) | SMemory (i : N) | SView (v : N) | SSampler (x : N) | SBuffer (b : N) | SBMemory (b : N).
Definition claim (h : rhandler) (s : slot) : option N :=
  match s with
  | SImage i => option_map fst (mfind i (rh_images h))
  | SMemory i => option_map snd (mfind i (rh_images h))
  | SView v => mfind v (rh_views h)
  | SSampler x => option_map (fun _ => x) (mfind x (rh_samplers h))
  | SBuffer b => option_map (fun _ => b) (mfind b (rh_buffers h))
  | SBMemory b => mfind b (rh_buffers h)
  end.
Definition label (s : slot) (o : object) : Prop :=
  match s, o with
  | SImage i, OImage j | SMemory i, OImageMemory j => i = j
  | SView v, OView w => v = w
  | SSampler _, OSampler _ | SBuffer _, OQuad _ => True
  | SBMemory b, OQuadMemory c => b = c
  | _, _ => False
  end.
Record finv (h : rhandler) : Prop := {
  fi_log : linv (rh_log h) (rh_next h);
  fi_claim : forall s x, claim h s = Some x -> x <> 0 -> exists o, label s o /\ live (rh_log h) o x }.

Lemma claim_self h s x : claim h s = Some x -> match s with SSampler y | SBuffer y => y = x | _ => True end.
Proof.
  destruct s as [| | |y|y|]; cbn [claim]; try (intros; exact I).
  - destruct (mfind y (rh_samplers h)); [intro E; injection E; auto|discriminate].
  - destruct (mfind y (rh_buffers h)); [intro E; injection E; auto|discriminate].
Qed.
Lemma claim_unique h s s' x : finv h -> claim h s = Some x -> claim h s' = Some x -> x <> 0 -> s = s'.
Proof.
  intros I C C' N. destruct (fi_claim _ I _ _ C N) as (o & L & A). destruct (fi_claim _ I _ _ C' N) as (o' & L' & A').
  assert (E : o = o') by exact (live_uniq _ _ _ _ _ (fi_log _ I) A A'). subst o'.
  pose proof (claim_self _ _ _ C) as D. pose proof (claim_self _ _ _ C') as D'.
  destruct s, o; cbn [label] in L; try contradiction; destruct s'; cbn [label] in L'; try contradiction; congruence.
Qed.

(* the log and the handles of a handler after a creation *)
Lemma finv_create h h' o s : finv h -> rh_log h' = rh_log h ++ [Created o (rh_next h)] -> rh_next h' = rh_next h + 1 -> label s o ->
  (forall t x, claim h' t = Some x -> claim h t = Some x \/ x = 0 \/ (t = s /\ x = rh_next h)) -> finv h'.
Proof.
  intros I El En L C. pose proof (fi_log _ I) as Li. split; [rewrite El, En; apply linv_create, Li|].
  intros t x Ct N. rewrite El. destruct (C t x Ct) as [H|[H|[-> ->]]]; [|contradiction|].
  - destruct (fi_claim _ I _ _ H N) as (o1 & L1 & A1). exists o1. split; [exact L1|]. apply (live_create _ _ _ _ _ Li). left. exact A1.
  - exists o. split; [exact L|]. apply (live_create _ _ _ _ _ Li). right. auto.
Qed.
(* entries changed without any call *)
Lemma finv_same h h' : finv h -> rh_log h' = rh_log h -> rh_next h' = rh_next h ->
  (forall t x, claim h' t = Some x -> claim h t = Some x \/ x = 0) -> finv h'.
Proof.
  intros I El En C. split; [rewrite El, En; apply (fi_log _ I)|]. intros t x Ct N. rewrite El.
  destruct (C t x Ct) as [H|H]; [exact (fi_claim _ I _ _ H N)|contradiction].
Qed.
Lemma finv_destroy h s x : finv h -> claim h s = Some x -> (forall t y, claim h t = Some y -> y <> 0 -> t <> s -> True) ->
  forall h', rh_log h' = rh_log (vk_destroy h x) -> rh_next h' = rh_next (vk_destroy h x) ->
  (forall t y, claim h' t = Some y -> claim h t = Some y /\ t <> s) -> finv h'.
Proof.
  intros I C _ h' El En K. split.
  - rewrite El, En. apply vkd_linv; [apply (fi_log _ I)|]. destruct (N.eq_dec x 0) as [->|N]; [left; reflexivity|right].
    destruct (fi_claim _ I _ _ C N) as (o & _ & A). exists o. exact A.
  - intros t y Ct N. destruct (K t y Ct) as [H Ns]. destruct (fi_claim _ I _ _ H N) as (o & L & A). exists o. split; [exact L|].
    rewrite El. apply (vkd_live _ _ _ _ (fi_log _ I)). split; [exact A|]. intros ->. apply Ns. exact (claim_unique _ _ _ _ I H C N).
Qed.

Lemma finv_new : finv new_rhandler.
Proof. split; [apply (in_log _ inv_new)|]. intros s x. destruct s; cbn; discriminate. Qed.

Ltac claims t := destruct t; cbn [claim rh_images rh_views rh_samplers rh_buffers set_rimages set_rviews set_rsamplers set_rbuffers vk_create fst snd rh_next]; auto.

Lemma finv_createImage h dev i l : finv h -> finv (fst (fst (rf_createImage h dev i l))).
Proof.
  intros I. unfold rf_createImage, try_create. destruct (mfind i (rh_images h)) as [[v m]|] eqn:E; [exact I|].
  destruct (ask l) as [[|] l1]; cbn [vk_create].
  2: { cbn [fst snd]. apply (finv_same h); [exact I|reflexivity|reflexivity|]. intros t x. claims t; rewrite mfind_mput; destruct (N.eqb_spec i0 i); cbn; auto; intros [= <-]; auto. }
  set (h1 := {| rh_images := rh_images h; rh_views := rh_views h; rh_samplers := rh_samplers h; rh_buffers := rh_buffers h;
                rh_next := rh_next h + 1; rh_log := rh_log h ++ [Created (OImage i) (rh_next h)] |}).
  assert (G : finv (set_rimages h1 (mput i (rh_next h, 0) (rh_images h1)))).
  { apply (finv_create h _ (OImage i) (SImage i) I); [reflexivity|reflexivity|reflexivity|]. intros t x.
    claims t; rewrite mfind_mput; destruct (N.eqb_spec i0 i) as [->|]; cbn; auto; intros [= <-]; auto. }
  destruct dev; [|exact G]. destruct (ask l1) as [[|] l2]; cbn [vk_create]; [|exact G].
  destruct (ask l2) as [ok l3]. cbn [fst snd].
  apply (finv_create _ _ (OImageMemory i) (SMemory i) G); [reflexivity|reflexivity|reflexivity|]. intros t x.
  claims t; rewrite !mfind_mput; destruct (N.eqb_spec i0 i) as [->|]; cbn; auto; intros [= <-]; auto.
Qed.
Lemma rfi_views h dev i l : rh_views (fst (fst (rf_createImage h dev i l))) = rh_views h.
Proof.
  unfold rf_createImage, try_create. destruct (mfind i (rh_images h)) as [[v m]|]; [reflexivity|].
  destruct (ask l) as [[|] l1]; cbn [vk_create]; [|reflexivity]. destruct dev; [|reflexivity]. destruct (ask l1) as [[|] l2]; cbn [vk_create]; [|reflexivity].
  destruct (ask l2) as [[|] l3]; reflexivity.
Qed.
Lemma finv_createView h dev v i l : finv h -> finv (fst (fst (rf_createImageView h dev v i l))).
Proof.
  intros I. unfold rf_createImageView. destruct (mfind v (rh_views h)) as [x|] eqn:E; [exact I|].
  set (h0 := set_rviews h (mput v 0 (rh_views h))).
  assert (I0 : finv h0).
  { apply (finv_same h); [exact I|reflexivity|reflexivity|]. intros t x. subst h0. claims t. rewrite mfind_mput. destruct (N.eqb_spec v0 v); auto. intros [= <-]; auto. }
  pose proof (finv_createImage h0 dev i l I0) as I1. pose proof (rfi_views h0 dev i l) as V.
  destruct (rf_createImage h0 dev i l) as [[h1 l1] r]. cbn [fst] in I1, V. destruct r as [p| |]; try exact I1.
  unfold try_create. destruct (ask l1) as [[|] l2]; cbn [vk_create]; [|exact I1]. cbn [fst].
  apply (finv_create h1 _ (OView v) (SView v) I1); [reflexivity|reflexivity|reflexivity|]. intros t x.
  claims t. rewrite mfind_mput. destruct (N.eqb_spec v0 v) as [->|]; auto. intros [= <-]; auto.
Qed.
Lemma finv_createSampler h d l : finv h -> finv (fst (fst (rf_createSampler h d l))).
Proof.
  intros I. unfold rf_createSampler, try_create. destruct (ask l) as [[|] l1]; cbn [vk_create fst].
  - apply (finv_create h _ (OSampler d) (SSampler (rh_next h)) I); [reflexivity|reflexivity|exact Logic.I|]. intros t x.
    claims t. rewrite mfind_minsert. destruct (mfind x0 (rh_samplers h)); [auto|]. destruct (N.eqb_spec x0 (rh_next h)) as [->|]; [|discriminate]. intros [= <-]. auto.
  - apply (finv_same h); [exact I|reflexivity|reflexivity|]. intros t x.
    claims t. rewrite mfind_minsert. destruct (mfind x0 (rh_samplers h)); [auto|]. destruct (N.eqb_spec x0 0) as [->|]; [|discriminate]. intros [= <-]. auto.
Qed.
Lemma finv_createQuad h dev q l : finv h -> finv (fst (fst (rf_createQuad h dev q l))).
Proof.
  intros I. unfold rf_createQuad, try_create. destruct (ask l) as [[|] l1]; cbn [vk_create fst]; [|exact I].
  set (h1 := {| rh_images := rh_images h; rh_views := rh_views h; rh_samplers := rh_samplers h; rh_buffers := rh_buffers h;
                rh_next := rh_next h + 1; rh_log := rh_log h ++ [Created (OQuad q) (rh_next h)] |}).
  assert (G : finv h1). { apply (finv_create h _ (OQuad q) (SBuffer 0) I); [reflexivity|reflexivity|exact Logic.I|]. intros t x. claims t. }
  assert (G0 : finv (set_rbuffers h1 (mput (rh_next h) 0 (rh_buffers h1)))).
  { apply (finv_create h _ (OQuad q) (SBuffer (rh_next h)) I); [reflexivity|reflexivity|exact Logic.I|]. intros t x.
    claims t; rewrite mfind_mput; destruct (N.eqb_spec b (rh_next h)) as [->|]; cbn; auto; intros [= <-]; auto. }
  destruct dev; [|exact G0]. destruct (ask l1) as [[|] l2]; cbn [vk_create fst]; [|exact G].
  set (h2 := {| rh_images := rh_images h1; rh_views := rh_views h1; rh_samplers := rh_samplers h1; rh_buffers := rh_buffers h1;
                rh_next := rh_next h1 + 1; rh_log := rh_log h1 ++ [Created (OQuadMemory (rh_next h)) (rh_next h1)] |}).
  assert (G2 : finv h2). { apply (finv_create h1 _ (OQuadMemory (rh_next h)) (SBMemory (rh_next h)) G); [reflexivity|reflexivity|reflexivity|]. intros t x. claims t. }
  destruct (ask l2) as [[|] l3]; [|exact G2]. destruct (ask l3) as [[|] l4]; [|exact G2]. cbn [fst].
  apply (finv_create _ _ (OQuadMemory (rh_next h)) (SBMemory (rh_next h)) G0); [reflexivity|reflexivity|reflexivity|]. intros t x.
  claims t; rewrite !mfind_mput; destruct (N.eqb_spec b (rh_next h)) as [->|]; cbn; auto; intros [= <-]; auto.
Qed.

(* destructions *)
Lemma finv_destroyImage h i : finv h -> finv (rh_destroyImage h i).
Proof.
  intros I. unfold rh_destroyImage. destruct (mfind i (rh_images h)) as [[v m]|] eqn:E; [|exact I].
  assert (Cv : claim h (SImage i) = Some v) by (cbn; rewrite E; reflexivity). assert (Cm : claim h (SMemory i) = Some m) by (cbn; rewrite E; reflexivity).
  assert (I1 : finv (set_rimages (vk_destroy h m) (mput i (v, 0) (rh_images h)))).
  { assert (J : finv (set_rimages h (mput i (v, m) (rh_images h)))).
    { apply (finv_same h); [exact I|reflexivity|reflexivity|]. intros t x. claims t; rewrite mfind_mput; destruct (N.eqb_spec i0 i) as [->|]; cbn; auto; rewrite E; cbn; auto. }
    destruct (N.eq_dec m 0) as [->|N].
    - change (vk_destroy h 0) with h. apply (finv_same h); [exact I|reflexivity|reflexivity|]. intros t x. claims t; rewrite mfind_mput; destruct (N.eqb_spec i0 i) as [->|]; cbn; auto; rewrite E; cbn; auto.
    - split; [apply vkd_linv; [apply (fi_log _ I)|right]; destruct (fi_claim _ I _ _ Cm N) as (o & _ & A); eauto|].
      intros t x Ct Nx. assert (Ch : claim h t = Some x /\ t <> SMemory i).
      { destruct t; cbn [claim rh_images rh_views rh_samplers rh_buffers set_rimages] in Ct |- *; rewrite ?vkd_views, ?vkd_samplers, ?vkd_buffers, ?mfind_mput in Ct;
          try (split; [exact Ct|discriminate]).
        - destruct (N.eqb_spec i0 i) as [->|]; (split; [|discriminate]); [rewrite E|]; exact Ct.
        - destruct (N.eqb_spec i0 i) as [->|Ni]; [cbn in Ct; congruence|]. split; [exact Ct|congruence]. }
      destruct Ch as [Ch Nt]. destruct (fi_claim _ I _ _ Ch Nx) as (o & L & A). exists o. split; [exact L|].
      cbn [rh_log set_rimages]. apply (vkd_live _ _ _ _ (fi_log _ I)). split; [exact A|]. intros ->. apply Nt. exact (claim_unique _ _ _ _ I Ch Cm Nx). }
  set (h1 := set_rimages (vk_destroy h m) (mput i (v, 0) (rh_images h))) in *.
  assert (C1 : claim h1 (SImage i) = Some v) by (cbn; rewrite mfind_mput, N.eqb_refl; reflexivity).
  cbv zeta. apply (finv_destroy h1 (SImage i) v I1 C1 (fun _ _ _ _ _ => Logic.I)).
  - cbn [rh_log set_rimages]. unfold vk_destroy at 1 3. destruct (N.eqb v 0); reflexivity.
  - cbn [rh_next set_rimages]. unfold vk_destroy at 1 3. destruct (N.eqb v 0); reflexivity.
  - subst h1. intros t y Ct. clear I I1 C1 Cv Cm E.
    destruct t; cbn [claim rh_images rh_views rh_samplers rh_buffers set_rimages] in Ct |- *; rewrite ?vkd_images, ?vkd_views, ?vkd_samplers, ?vkd_buffers, ?mfind_merase in Ct; rewrite ?vkd_images, ?vkd_views, ?vkd_samplers, ?vkd_buffers;
      try (split; [exact Ct|discriminate]); rewrite mfind_mput; destruct (N.eqb_spec i0 i) as [->|Ni]; try discriminate Ct;
      (split; [exact Ct|congruence]).
Qed.
Lemma finv_destroyView h i : finv h -> finv (rh_destroyImageView h i).
Proof.
  intros I. unfold rh_destroyImageView. destruct (mfind i (rh_views h)) as [v|] eqn:E; [|exact I].
  apply (finv_destroy h (SView i) v I E (fun _ _ _ _ _ => Logic.I)); [reflexivity|reflexivity|].
  intros t y Ct. destruct t; cbn [claim rh_images rh_views rh_samplers rh_buffers set_rviews] in Ct |- *; rewrite ?vkd_images, ?vkd_views, ?vkd_samplers, ?vkd_buffers, ?mfind_merase in Ct; rewrite ?vkd_images, ?vkd_views, ?vkd_samplers, ?vkd_buffers;
    try (split; [exact Ct|discriminate]). destruct (N.eqb_spec v0 i) as [->|]; [discriminate|]. split; [exact Ct|congruence].
Qed.
Lemma finv_destroySampler h i : finv h -> finv (rh_destroySampler h i).
Proof.
  intros I. unfold rh_destroySampler. destruct (mfind i (rh_samplers h)) as [v|] eqn:E; [|exact I].
  assert (C : claim h (SSampler i) = Some i) by (cbn; rewrite E; reflexivity).
  apply (finv_destroy h (SSampler i) i I C (fun _ _ _ _ _ => Logic.I)); [reflexivity|reflexivity|].
  intros t y Ct. destruct t; cbn [claim rh_images rh_views rh_samplers rh_buffers set_rsamplers] in Ct |- *; rewrite ?vkd_images, ?vkd_views, ?vkd_samplers, ?vkd_buffers, ?mfind_merase in Ct; rewrite ?vkd_images, ?vkd_views, ?vkd_samplers, ?vkd_buffers;
    try (split; [exact Ct|discriminate]). destruct (N.eqb_spec x i) as [->|]; [discriminate|]. split; [exact Ct|congruence].
Qed.
Lemma finv_destroyBuffer h i : finv h -> finv (rh_destroyVertexBuffer h i).
Proof.
  intros I. unfold rh_destroyVertexBuffer. destruct (mfind i (rh_buffers h)) as [m|] eqn:E; [|exact I].
  assert (Cb : claim h (SBuffer i) = Some i) by (cbn; rewrite E; reflexivity). assert (Cm : claim h (SBMemory i) = Some m) by exact E.
  assert (I1 : finv (set_rbuffers (vk_destroy h m) (mput i 0 (rh_buffers h)))).
  { destruct (N.eq_dec m 0) as [->|N].
    - change (vk_destroy h 0) with h. apply (finv_same h); [exact I|reflexivity|reflexivity|]. intros t x. claims t; rewrite mfind_mput; destruct (N.eqb_spec b i) as [->|]; cbn; auto; rewrite E; cbn; auto.
    - split; [apply vkd_linv; [apply (fi_log _ I)|right]; destruct (fi_claim _ I _ _ Cm N) as (o & _ & A); eauto|].
      intros t x Ct Nx. assert (Ch : claim h t = Some x /\ t <> SBMemory i).
      { destruct t; cbn [claim rh_images rh_views rh_samplers rh_buffers set_rbuffers] in Ct |- *; rewrite ?vkd_images, ?vkd_views, ?vkd_samplers, ?mfind_mput in Ct;
          try (split; [exact Ct|discriminate]).
        - destruct (N.eqb_spec b i) as [->|]; (split; [|discriminate]); [rewrite E|]; exact Ct.
        - destruct (N.eqb_spec b i) as [->|Ni]; [cbn in Ct; congruence|]. split; [exact Ct|congruence]. }
      destruct Ch as [Ch Nt]. destruct (fi_claim _ I _ _ Ch Nx) as (o & L & A). exists o. split; [exact L|].
      cbn [rh_log set_rbuffers]. apply (vkd_live _ _ _ _ (fi_log _ I)). split; [exact A|]. intros ->. apply Nt. exact (claim_unique _ _ _ _ I Ch Cm Nx). }
  set (h1 := set_rbuffers (vk_destroy h m) (mput i 0 (rh_buffers h))) in *.
  assert (C1 : claim h1 (SBuffer i) = Some i) by (cbn; rewrite mfind_mput, N.eqb_refl; reflexivity).
  cbv zeta. apply (finv_destroy h1 (SBuffer i) i I1 C1 (fun _ _ _ _ _ => Logic.I)).
  - cbn [rh_log set_rbuffers]. unfold vk_destroy at 1 3. destruct (N.eqb i 0); reflexivity.
  - cbn [rh_next set_rbuffers]. unfold vk_destroy at 1 3. destruct (N.eqb i 0); reflexivity.
  - subst h1. intros t y Ct. clear I I1 C1 Cb Cm E.
    destruct t; cbn [claim rh_images rh_views rh_samplers rh_buffers set_rbuffers] in Ct |- *; rewrite ?vkd_images, ?vkd_views, ?vkd_samplers, ?vkd_buffers, ?mfind_merase in Ct; rewrite ?vkd_images, ?vkd_views, ?vkd_samplers, ?vkd_buffers;
      try (split; [exact Ct|discriminate]); rewrite mfind_mput; destruct (N.eqb_spec b i) as [->|Ni]; try discriminate Ct;
      (split; [exact Ct|congruence]).
Qed.
