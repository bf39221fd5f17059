(* Proofs of C105. *)
From Coq Require Import Lia Permutation.
From Verif Require Import Spec_Leak Proof_Layout Proof_Res Proof_Res2 Proof_Res3 Proof_Res4.
Local Open Scope N_scope.
Local Open Scope list_scope.

(* ---------------------------------------------------------------- the keys of the maps are all different *)
Record distinct (h : rhandler) : Prop := {
  ds_images : NoDup (map fst (rh_images h)); ds_views : NoDup (map fst (rh_views h));
  ds_samplers : NoDup (map fst (rh_samplers h)); ds_buffers : NoDup (map fst (rh_buffers h)) }.
Lemma nodup_minsert {V} k (v : V) m : NoDup (map fst m) -> NoDup (map fst (minsert k v m)).
Proof. intros H. unfold minsert. destruct (mfind k m) eqn:E; [exact H|apply nodup_mput_new; assumption]. Qed.
Lemma nodup_merase {V} k (m : nmap V) : NoDup (map fst m) -> NoDup (map fst (merase k m)).
Proof. apply NoDup_map_filter. Qed.

Lemma ds_log h o : distinct h -> distinct (fst (vk_create h o)). Proof. intros [A B C D]. split; assumption. Qed.
Lemma ds_vkd h y : distinct h -> distinct (vk_destroy h y). Proof. intros [A B C D]. unfold vk_destroy. destruct (N.eqb y 0); split; assumption. Qed.

Lemma ds_createImage h dev i : distinct h -> distinct (fst (rh_createImage h dev i)).
Proof.
  intros [A B C D]. unfold rh_createImage. destruct (mfind i (rh_images h)) as [[v m]|] eqn:E; [split; assumption|].
  destruct dev; split; cbn; try assumption; apply nodup_mput_new; assumption.
Qed.
Lemma ds_createView h dev v i : distinct h -> distinct (fst (rh_createImageView h dev v i)).
Proof.
  intros D. unfold rh_createImageView. destruct (mfind v (rh_views h)) as [x|] eqn:E; [exact D|].
  pose proof (ds_createImage h dev i D) as D1. pose proof (createImage_views h dev i) as V. destruct (rh_createImage h dev i) as [h1 r]. cbn in *.
  destruct D1 as [A B C F]. split; cbn; try assumption. apply nodup_mput_new; [rewrite V; exact E|exact B].
Qed.
Lemma ds_createSampler h d : distinct h -> distinct (fst (rh_createSampler h d)).
Proof. intros [A B C D]. split; cbn; try assumption. apply nodup_minsert, C. Qed.
Lemma ds_createQuad h dev q : inv h -> distinct h -> distinct (fst (rh_createQuad h dev q)).
Proof.
  intros Hi [A B C D]. assert (E : mfind (rh_next h) (rh_buffers h) = None).
  { destruct (mfind (rh_next h) (rh_buffers h)) as [m|] eqn:E; [|reflexivity]. destruct (in_buf _ Hi _ _ E) as (x & L & _).
    apply (live_pos _ _ _ _ (in_log _ Hi)) in L. lia. }
  unfold rh_createQuad. destruct dev; split; cbn; try assumption; apply nodup_mput_new; assumption.
Qed.
Lemma ds_destroyImage h i : distinct h -> distinct (rh_destroyImage h i).
Proof.
  intros D. unfold rh_destroyImage. destruct (mfind i (rh_images h)) as [[v m]|]; [|exact D].
  destruct (ds_vkd _ v (ds_vkd _ m D)) as [A B C F]. split; cbn; try assumption. apply nodup_merase, A.
Qed.
Lemma ds_destroyView h i : distinct h -> distinct (rh_destroyImageView h i).
Proof.
  intros D. unfold rh_destroyImageView. destruct (mfind i (rh_views h)) as [v|]; [|exact D].
  destruct (ds_vkd _ v D) as [A B C F]. split; cbn; try assumption. apply nodup_merase, B.
Qed.
Lemma ds_destroySampler h i : distinct h -> distinct (rh_destroySampler h i).
Proof.
  intros D. unfold rh_destroySampler. destruct (mfind i (rh_samplers h)) as [v|]; [|exact D].
  destruct (ds_vkd _ i D) as [A B C F]. split; cbn; try assumption. apply nodup_merase, C.
Qed.
Lemma ds_destroyBuffer h i : distinct h -> distinct (rh_destroyVertexBuffer h i).
Proof.
  intros D. unfold rh_destroyVertexBuffer. destruct (mfind i (rh_buffers h)) as [v|]; [|exact D].
  destruct (ds_vkd _ i (ds_vkd _ v D)) as [A B C F]. split; cbn; try assumption. apply nodup_merase, F.
Qed.
Lemma ds_fold {A} (f : rhandler -> A -> rhandler) : (forall h a, distinct h -> distinct (f h a)) -> forall l h, distinct h -> distinct (fold_left f l h).
Proof. intros F. induction l as [|a r IH]; intros h D; [exact D|apply IH, F, D]. Qed.
Lemma ds_cc_destroy h c : distinct h -> distinct (cc_destroy h c).
Proof.
  intros D. unfold cc_destroy.
  apply ds_fold; [intros; apply ds_destroyBuffer; assumption|]. apply ds_fold; [intros; apply ds_destroySampler; assumption|].
  apply ds_fold; [intros; apply ds_destroyImage; assumption|]. apply ds_fold; [intros; apply ds_destroyView; assumption|exact D].
Qed.
Lemma ds_cc_image h c i : distinct h -> distinct (fst (cc_destroyImage h c i)).
Proof. intros D. unfold cc_destroyImage. destruct (mfind i (cc_images c)); [apply ds_destroyImage, D|exact D]. Qed.
Lemma ds_cc_view h c i : distinct h -> distinct (fst (cc_destroyImageView h c i)).
Proof. intros D. unfold cc_destroyImageView. destruct (mfind i (cc_views c)); [apply ds_destroyView, D|exact D]. Qed.
Lemma ds_any f cs rc : (forall h c, distinct h -> distinct (fst (f h c))) -> forall order h, distinct h -> distinct (fst (destroy_any f h cs rc order)).
Proof.
  intros F. induction order as [|cx r IH]; intros h D; [exact D|]. cbn. pose proof (F h (get_cache (rc, cx) cs) D) as X.
  destruct (f h (get_cache (rc, cx) cs)) as [h' [|]]; [exact X|apply IH, X].
Qed.
Lemma ds_step hs devices s o : sinv hs s -> distinct (sy_handler s) -> distinct (sy_handler (fst (res_step devices hs s o))).
Proof.
  intros S D. destruct o as [rc cx i|rc cx v i|rc cx i|rc cx v|rc order i|rc order v|rc cx d|rc cx q|rc]; cbn.
  - unfold cc_createImage. pose proof (ds_createImage _ (devices cx) i D) as X. destruct (rh_createImage (sy_handler s) (devices cx) i) as [h' [vk c]]. exact X.
  - unfold cc_createImageView. pose proof (ds_createView _ (devices cx) v i D) as X. destruct (rh_createImageView (sy_handler s) (devices cx) v i) as [h' [vk c]]. exact X.
  - pose proof (ds_cc_image _ (get_cache (rc, cx) (sy_caches s)) i D) as X. destruct (cc_destroyImage _ _ i) as [h' b]. exact X.
  - pose proof (ds_cc_view _ (get_cache (rc, cx) (sy_caches s)) v D) as X. destruct (cc_destroyImageView _ _ v) as [h' b]. exact X.
  - pose proof (ds_any (fun h c => cc_destroyImage h c i) (sy_caches s) rc (fun h c => ds_cc_image h c i) order _ D) as X. destruct (destroy_any _ _ _ _ _) as [h' b]. exact X.
  - pose proof (ds_any (fun h c => cc_destroyImageView h c v) (sy_caches s) rc (fun h c => ds_cc_view h c v) order _ D) as X. destruct (destroy_any _ _ _ _ _) as [h' b]. exact X.
  - unfold cc_createSampler. destruct (mfind (samplerHash hs d) _); [exact D|]. pose proof (ds_createSampler _ d D) as X.
    destruct (rh_createSampler (sy_handler s) d) as [h' vk]. exact X.
  - unfold cc_createQuad. destruct (mfind (quadHash q) _); [exact D|]. pose proof (ds_createQuad _ (devices cx) q (si_h _ _ S) D) as X.
    destruct (rh_createQuad (sy_handler s) (devices cx) q) as [h' vk]. exact X.
  - apply ds_fold; [|exact D]. intros h e X. destruct (N.eqb (fst (fst e)) rc); [apply ds_cc_destroy, X|exact X].
Qed.
Lemma ds_run hs devices ops : forall s, sinv hs s -> distinct (sy_handler s) -> distinct (sy_handler (res_run devices hs s ops)).
Proof.
  induction ops as [|o r IH]; intros s S D; [exact D|]. apply (IH (fst (res_step devices hs s o))); [apply sinv_step, S|apply ds_step; assumption].
Qed.
Lemma ds_new : distinct new_rhandler. Proof. split; constructor. Qed.

(* ---------------------------------------------------------------- what is held, what is alive *)
Inductive item := IV (v : N) | II (i : N) | IM (b : N) | IB (b : N) | IS (x : N).
Definition buffer_items (e : N * N) : list item := (if N.eqb (snd e) 0 then [] else [IM (fst e)]) ++ [IB (fst e)].
Definition items (h : rhandler) : list item :=
  map (fun e => IV (fst e)) (rh_views h) ++ map (fun e => II (fst e)) (rh_images h) ++ flat_map buffer_items (rh_buffers h) ++
  map (fun e => IS (fst e)) (rh_samplers h).
Definition item_of (e : object * N) : list item :=
  match fst e with
  | OView v => [IV v] | OImage i => [II i] | OImageMemory _ => [] | OSampler _ => [IS (snd e)] | OQuad _ => [IB (snd e)] | OQuadMemory b => [IM b]
  end.
Definition line_of (nm : namings) (i : item) : string :=
  match i with
  | IV v => leak_line "VkImageView" (nm_view nm v) | II i => leak_line "VkImage" (nm_image nm i) | IM b => leak_line "VkDeviceMemory" (nm_buffer nm b)
  | IB b => leak_line "VkBuffer" (nm_buffer nm b) | IS x => leak_line "VkSampler" (nm_sampler nm x)
  end.

Lemma in_survivors log o x : In (o, x) (survivors log) <-> live log o x.
Proof.
  unfold survivors, live. rewrite in_flat_map. split.
  - intros ([o' y|y] & I1 & I2); [|destruct I2]. destruct (existsb (N.eqb y) (destroyed log)) eqn:E; [destruct I2|].
    destruct I2 as [[= -> ->]|[]]. split; [exact I1|]. intros H. assert (existsb (N.eqb x) (destroyed log) = true) by (apply existsb_exists; exists x; split; [exact H|apply N.eqb_refl]). congruence.
  - intros [I1 I2]. exists (Created o x). split; [exact I1|]. destruct (existsb (N.eqb x) (destroyed log)) eqn:E; [|left; reflexivity].
    apply existsb_exists in E as (y & H & E). apply N.eqb_eq in E. subst y. contradiction.
Qed.
Lemma nodup_flat {A B} (f : A -> list B) l : NoDup l -> (forall a, In a l -> NoDup (f a)) ->
  (forall a a' x, In a l -> In a' l -> In x (f a) -> In x (f a') -> a = a') -> NoDup (flat_map f l).
Proof.
  induction l as [|a r IH]; cbn; intros N1 N2 N3; [constructor|]. apply NoDup_cons_iff in N1 as [N1 N1'].
  assert (R : NoDup (flat_map f r)) by (apply IH; [exact N1'|intros; apply N2; right; assumption|intros; eapply N3; eauto]).
  assert (X : forall x, In x (f a) -> ~ In x (flat_map f r)).
  { intros x H H'. apply in_flat_map in H' as (a' & I1 & I2). apply N1. rewrite (N3 a a' x); auto. }
  pose proof (N2 a (or_introl eq_refl)) as F. revert F X. generalize (f a) as m. induction m as [|y m IHm]; intros F X; cbn; [exact R|].
  apply NoDup_cons_iff in F as [F1 F2]. constructor; [|apply IHm; [exact F2|intros; apply X; right; assumption]].
  rewrite in_app_iff. intros [H|H]; [exact (F1 H)|exact (X y (or_introl eq_refl) H)].
Qed.
Lemma survivors_nodup log next : linv log next -> NoDup (survivors log).
Proof.
  intros L. unfold survivors. pose proof (li_nodup _ _ L) as N0. revert N0. generalize (destroyed log) as D. clear L.
  intros D. induction log as [|[o x|x] r IH]; cbn; intros N0; [constructor| |apply IH, N0].
  apply NoDup_cons_iff in N0 as [N1 N2]. destruct (existsb (N.eqb x) D); [apply IH, N2|]. cbn. constructor; [|apply IH, N2].
  intros H. apply in_flat_map in H as ([o' y|y] & I1 & I2); [|destruct I2]. destruct (existsb (N.eqb y) D); [destruct I2|].
  destruct I2 as [[= -> ->]|[]]. apply N1. exact (in_created _ _ _ I1).
Qed.

Lemma nodup_in_mfind {V} k (v : V) m : NoDup (map fst m) -> In (k, v) m -> mfind k m = Some v.
Proof.
  induction m as [|[k' v'] r IH]; cbn; [intros _ []|]. intros N0 [[= -> ->]|H]; [rewrite N.eqb_refl; reflexivity|].
  apply NoDup_cons_iff in N0 as [N1 N2]. destruct (N.eqb_spec k k') as [->|]; [|apply IH; assumption].
  exfalso. apply N1. apply in_map_iff. exists (k', v). split; [reflexivity|exact H].
Qed.
Lemma nodup_map_fst {V B} (g : N -> B) (m : nmap V) : (forall a b, g a = g b -> a = b) -> NoDup (map fst m) -> NoDup (map (fun e => g (fst e)) m).
Proof.
  intros J. induction m as [|e r IH]; cbn; intros N0; [constructor|]. apply NoDup_cons_iff in N0 as [N1 N2]. constructor; [|apply IH, N2].
  intros H. apply in_map_iff in H as (e' & E & H). apply J in E. apply N1. rewrite <- E. apply in_map. exact H.
Qed.

Lemma in_items h i : distinct h ->
  (In i (items h) <-> match i with
                      | IV v => exists x, mfind v (rh_views h) = Some x
                      | II i => exists p, mfind i (rh_images h) = Some p
                      | IM b => exists m, mfind b (rh_buffers h) = Some m /\ m <> 0
                      | IB b => exists m, mfind b (rh_buffers h) = Some m
                      | IS x => exists u, mfind x (rh_samplers h) = Some u
                      end).
Proof.
  intros [A B C D]. unfold items. rewrite !in_app_iff, !in_map_iff, in_flat_map. split.
  - intros [([k x] & <- & H)|[([k x] & <- & H)|[([k x] & H & I1)|([k x] & <- & H)]]]; cbn.
    + exists x. apply nodup_in_mfind; assumption.
    + exists x. apply nodup_in_mfind; assumption.
    + unfold buffer_items in I1. cbn in I1. apply in_app_or in I1 as [I1|[<-|[]]].
      * destruct (N.eqb_spec x 0) as [|X]; [destruct I1|]. destruct I1 as [<-|[]]. exists x. split; [apply nodup_in_mfind; assumption|exact X].
      * exists x. apply nodup_in_mfind; assumption.
    + exists x. apply nodup_in_mfind; assumption.
  - destruct i as [v|i|b|b|x]; intros (y & H).
    + left. exists (v, y). split; [reflexivity|apply mfind_in, H].
    + right. left. exists (i, y). split; [reflexivity|apply mfind_in, H].
    + right. right. left. destruct H as [H X]. exists (b, y). split; [apply mfind_in, H|]. unfold buffer_items. cbn. apply N.eqb_neq in X. rewrite X. left. reflexivity.
    + right. right. left. exists (b, y). split; [apply mfind_in, H|]. unfold buffer_items. cbn. apply in_or_app. right. left. reflexivity.
    + right. right. right. exists (x, y). split; [reflexivity|apply mfind_in, H].
Qed.
Lemma nodup_join {A} (a b : list A) : NoDup a -> NoDup b -> (forall x, In x a -> ~ In x b) -> NoDup (a ++ b).
Proof.
  intros Na Nb X. induction a as [|y a IH]; [exact Nb|]. cbn. apply NoDup_cons_iff in Na as [N1 N2]. constructor.
  - rewrite in_app_iff. intros [H|H]; [exact (N1 H)|exact (X y (or_introl eq_refl) H)].
  - apply IH; [exact N2|intros; apply X; right; assumption].
Qed.
Lemma items_nodup h : distinct h -> NoDup (items h).
Proof.
  intros [A B C D]. unfold items. repeat apply nodup_join.
  - apply nodup_map_fst; [congruence|exact B].
  - apply nodup_map_fst; [congruence|exact A].
  - apply nodup_flat.
    + apply (NoDup_map_inv fst). exact D.
    + intros [k m] _. unfold buffer_items. cbn. destruct (N.eqb m 0); repeat constructor; cbn; intuition discriminate.
    + intros [k m] [k' m'] x I1 I2 I3 I4. assert (k = k').
      { unfold buffer_items in I3, I4. cbn in I3, I4. apply in_app_or in I3, I4. destruct (N.eqb m 0), (N.eqb m' 0); cbn in I3, I4; intuition congruence. }
      subst k'. pose proof (nodup_in_mfind _ _ _ D I1). pose proof (nodup_in_mfind _ _ _ D I2). congruence.
  - apply nodup_map_fst; [congruence|exact C].
  - intros x H1 H2. apply in_flat_map in H1 as ([k m] & _ & H1). apply in_map_iff in H2 as (e & <- & _).
    unfold buffer_items in H1. cbn in H1. apply in_app_or in H1. destruct (N.eqb m 0); cbn in H1; intuition discriminate.
  - intros x H1 H2. apply in_map_iff in H1 as (e & <- & _). rewrite in_app_iff, in_flat_map, in_map_iff in H2. destruct H2 as [([k m] & _ & H2)|(e' & E & _)]; [|discriminate].
    unfold buffer_items in H2. cbn in H2. apply in_app_or in H2. destruct (N.eqb m 0); cbn in H2; intuition discriminate.
  - intros x H1 H2. apply in_map_iff in H1 as (e & <- & _). rewrite !in_app_iff, in_flat_map, !in_map_iff in H2. destruct H2 as [(e' & E & _)|[([k m] & _ & H2)|(e' & E & _)]]; try discriminate.
    unfold buffer_items in H2. cbn in H2. apply in_app_or in H2. destruct (N.eqb m 0); cbn in H2; intuition discriminate.
Qed.

Lemma items_alive h : inv h -> distinct h -> Permutation (items h) (flat_map item_of (survivors (rh_log h))).
Proof.
  intros Hi Hd. apply NoDup_Permutation.
  - apply items_nodup, Hd.
  - apply nodup_flat.
    + exact (survivors_nodup _ _ (in_log _ Hi)).
    + intros [o x] _. unfold item_of. cbn. destruct o; repeat constructor; intros [].
    + intros [o x] [o' x'] i I1 I2 I3 I4. apply in_survivors in I1, I2.
      pose proof (in_loc _ Hi _ _ I1) as L1. pose proof (in_loc _ Hi _ _ I2) as L2. unfold item_of in I3, I4. cbn in I3, I4.
      destruct o as [j|j|v|d|q|b], o' as [j'|j'|v'|d'|q'|b']; cbn in I3, I4; try contradiction; destruct I3 as [<-|[]]; destruct I4 as [E|[]]; try discriminate; injection E as ->;
        cbn in L1, L2; repeat match goal with H : exists _, _ |- _ => destruct H end; try congruence.
      * pose proof (live_uniq _ _ _ _ _ (in_log _ Hi) I1 I2). congruence.
      * pose proof (live_uniq _ _ _ _ _ (in_log _ Hi) I1 I2). congruence.
  - intros i. rewrite (in_items h i Hd), in_flat_map. split.
    + destruct i as [v|i|b|b|x].
      * intros (x & H). exists (OView v, x). split; [apply in_survivors, (in_view _ Hi), H|left; reflexivity].
      * intros ([x m] & H). exists (OImage i, x). split; [apply in_survivors, (in_img _ Hi _ _ _ H)|left; reflexivity].
      * intros (m & H & X). destruct (in_buf _ Hi _ _ H) as (q & _ & [E|L]); [contradiction|]. exists (OQuadMemory b, m). split; [apply in_survivors, L|left; reflexivity].
      * intros (m & H). destruct (in_buf _ Hi _ _ H) as (q & L & _). exists (OQuad q, b). split; [apply in_survivors, L|left; reflexivity].
      * intros (u & H). destruct (in_smp _ Hi _ _ H) as (d & L). exists (OSampler d, x). split; [apply in_survivors, L|left; reflexivity].
    + intros ([o x] & I1 & I2). apply in_survivors in I1. pose proof (in_loc _ Hi _ _ I1) as L. pose proof (live_pos _ _ _ _ (in_log _ Hi) I1) as P.
      unfold item_of in I2. cbn in I2. destruct o as [j|j|v|d|q|b]; cbn in I2, L; try contradiction; destruct I2 as [<-|[]].
      * destruct L as (m & L). eexists; exact L.
      * eexists; exact L.
      * eexists; exact L.
      * destruct L as (m & L). eexists; exact L.
      * exists x. split; [exact L|lia].
Qed.

Lemma leaks_items nm h : inv h -> distinct h -> rh_leaks nm h = map (line_of nm) (items h).
Proof.
  intros Hi [_ _ _ D]. unfold rh_leaks, items. rewrite !map_app, !map_map. f_equal. f_equal. f_equal.
  assert (P : forall e, In e (rh_buffers h) -> fst e <> 0).
  { intros [b m] H. apply (nodup_in_mfind _ _ _ D) in H. destruct (in_buf _ Hi _ _ H) as (q & L & _). apply (live_pos _ _ _ _ (in_log _ Hi)) in L. cbn. lia. }
  revert P. generalize (rh_buffers h) as l. induction l as [|[b m] r IH]; intros P; [reflexivity|]. cbn [flat_map]. rewrite map_app, IH by (intros; apply P; right; assumption). f_equal.
  pose proof (P _ (or_introl eq_refl)) as X. cbn in X. apply N.eqb_neq in X. unfold buffer_items. cbn. rewrite X. destruct (N.eqb m 0); reflexivity.
Qed.
Lemma told_items nm l : flat_map (told_of nm) l = map (line_of nm) (flat_map item_of l).
Proof. induction l as [|[o x] r IH]; [reflexivity|]. cbn. rewrite map_app, IH. f_equal. destruct o; reflexivity. Qed.
