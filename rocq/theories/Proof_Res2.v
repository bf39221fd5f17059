(* Caches over the resource handler: C31, C32, C55. *)
From Coq Require Import Lia ZifyBool ZifyNat ZifyN.
From Verif Require Import Spec_Res Proof_Layout Proof_Res.
Local Open Scope N_scope.

Lemma ckey_eqb_spec a b : reflect (a = b) (ckey_eqb a b).
Proof.
  destruct a as [a1 a2], b as [b1 b2]. unfold ckey_eqb. cbn.
  destruct (N.eqb_spec a1 b1), (N.eqb_spec a2 b2); cbn; constructor; congruence.
Qed.

(* ------------------------------------------------------------------ references held by the caches *)
Definition ref (f : ccache -> nmap N) (l : list (ckey * ccache)) (k : ckey) (a x : N) : Prop :=
  exists c, In (k, c) l /\ In (a, x) (f c).

Lemma put_keys k c l : map fst (put_cache k c l) = map fst l \/ (~ In k (map fst l) /\ map fst (put_cache k c l) = map fst l ++ [k]).
Proof.
  induction l as [|[k' c'] r IH]; [right; split; [intros [] | reflexivity]|]. cbn.
  destruct (ckey_eqb_spec k k') as [->|Hn]; [left; reflexivity|]. cbn.
  destruct IH as [-> | [H1 ->]]; [left; reflexivity|]. right. split; [|reflexivity]. intros [E | H]; [congruence | exact (H1 H)].
Qed.
Lemma put_nodup k c l : NoDup (map fst l) -> NoDup (map fst (put_cache k c l)).
Proof. intros H. destruct (put_keys k c l) as [-> | [H1 ->]]; [exact H|]. apply NoDup_snoc; assumption. Qed.
Lemma in_put k c l : NoDup (map fst l) -> forall k0 c0, In (k0, c0) (put_cache k c l) <-> (k0 = k /\ c0 = c) \/ (k0 <> k /\ In (k0, c0) l).
Proof.
  induction l as [|[k' c'] r IH]; intros Hn k0 c0; cbn.
  - split; [intros [[= <- <-] | []]; left; split; reflexivity | intros [[-> ->] | [_ []]]; left; reflexivity].
  - cbn in Hn. apply NoDup_cons_iff in Hn as [Hn1 Hn2]. destruct (ckey_eqb_spec k k') as [->|Hk]; cbn.
    + split.
      * intros [[= <- <-] | H]; [left; split; reflexivity|]. right. split; [|right; exact H]. intros ->. apply Hn1.
        apply (in_map fst) in H. exact H.
      * intros [[-> ->] | [H1 [[= <- <-] | H2]]]; [left; reflexivity | congruence | right; exact H2].
    + rewrite (IH Hn2). split.
      * intros [[= <- <-] | [[-> ->] | [H1 H2]]]; [right; split; [congruence | left; reflexivity] | left; split; reflexivity | right; split; [exact H1 | right; exact H2]].
      * intros [[-> ->] | [H1 [[= <- <-] | H2]]]; [right; left; split; reflexivity | left; reflexivity | right; right; split; assumption].
Qed.
Lemma ref_put f k c l : NoDup (map fst l) -> forall k0 a x,
  ref f (put_cache k c l) k0 a x <-> (k0 = k /\ In (a, x) (f c)) \/ (k0 <> k /\ ref f l k0 a x).
Proof.
  intros Hn k0 a x. unfold ref. split.
  - intros (c0 & H1 & H2). apply (in_put k c l Hn) in H1 as [[-> ->] | [H1 H3]]; [left; split; [reflexivity | exact H2]|].
    right. split; [exact H1|]. exists c0. split; assumption.
  - intros [[-> H] | [H1 (c0 & H2 & H3)]].
    + exists c. split; [|exact H]. apply (in_put k c l Hn). left. split; reflexivity.
    + exists c0. split; [|exact H3]. apply (in_put k c l Hn). right. split; assumption.
Qed.
Lemma get_in k l c : NoDup (map fst l) -> In (k, c) l -> get_cache k l = c.
Proof.
  induction l as [|[k' c'] r IH]; [intros _ []|]. cbn. intros Hn H. apply NoDup_cons_iff in Hn as [Hn1 Hn2].
  destruct (ckey_eqb_spec k k') as [->|Hk].
  - destruct H as [[= ->] | H]; [reflexivity|]. exfalso. apply Hn1. apply (in_map fst) in H. exact H.
  - destruct H as [[= -> ->] | H]; [congruence | exact (IH Hn2 H)].
Qed.
Lemma get_cases k l : In (k, get_cache k l) l \/ get_cache k l = empty_ccache.
Proof.
  induction l as [|[k' c'] r IH]; [right; reflexivity|]. cbn. destruct (ckey_eqb_spec k k') as [->|Hk].
  - left. left. reflexivity.
  - destruct IH as [IH | IH]; [left; right; exact IH | right; exact IH].
Qed.
Lemma ref_get f k l a x : f empty_ccache = [] -> NoDup (map fst l) -> (In (a, x) (f (get_cache k l)) <-> ref f l k a x).
Proof.
  intros Hf Hn. split.
  - intros H. destruct (get_cases k l) as [G | G]; [|rewrite G, Hf in H; destruct H]. eexists. split; [exact G | exact H].
  - intros (c & H1 & H2). rewrite (get_in _ _ _ Hn H1). exact H2.
Qed.
Lemma ref_put_get f k l : f empty_ccache = [] -> NoDup (map fst l) -> forall k0 a x,
  ref f (put_cache k (get_cache k l) l) k0 a x <-> ref f l k0 a x.
Proof.
  intros Hf Hn k0 a x. rewrite (ref_put _ _ _ _ Hn), (ref_get f k l a x Hf Hn). split.
  - intros [[-> H] | [_ H]]; exact H.
  - intros H. destruct (ckey_eqb_spec k0 k) as [->|]; [left; split; [reflexivity | exact H] | right; split; assumption].
Qed.

Lemma in_mput_inv {V} k (v : V) m e : In e (mput k v m) -> e = (k, v) \/ In e m.
Proof.
  induction m as [|[k' v'] r IH]; cbn; [intros [<- | []]; left; reflexivity|].
  destruct (N.eqb k k'); [intros [<- | H]; [left; reflexivity | right; right; exact H]|].
  destruct (N.ltb k k'); [intros [<- | H]; [left; reflexivity | right; exact H]|].
  intros [<- | H]; [right; left; reflexivity|]. destruct (IH H) as [-> | H']; [left; reflexivity | right; right; exact H'].
Qed.
Lemma in_mput_same {V} k (v : V) m : In (k, v) (mput k v m).
Proof.
  induction m as [|[k' v'] r IH]; cbn; [left; reflexivity|].
  destruct (N.eqb k k'); [left; reflexivity|]. destruct (N.ltb k k'); [left; reflexivity | right; exact IH].
Qed.
Lemma in_mput_new {V} k (v : V) m e : mfind k m = None -> (In e (mput k v m) <-> e = (k, v) \/ In e m).
Proof.
  intros Hn. split; [apply in_mput_inv|]. intros [-> | H]; [apply in_mput_same|].
  revert Hn H. induction m as [|[k' v'] r IH]; cbn; [intros _ []|].
  destruct (N.eqb_spec k k') as [->|Hk]; [discriminate|]. intros Hn H.
  destruct (N.ltb k k'); [right; exact H|]. destruct H as [<- | H]; [left; reflexivity | right; exact (IH Hn H)].
Qed.
Lemma mfind_in {V} k (v : V) m : mfind k m = Some v -> In (k, v) m.
Proof.
  induction m as [|[k' v'] r IH]; cbn; [discriminate|]. destruct (N.eqb_spec k k') as [->|].
  - intros [= ->]. left. reflexivity.
  - intros H. right. exact (IH H).
Qed.
Lemma mfind_none_in {V} k (m : nmap V) : mfind k m = None -> forall v, ~ In (k, v) m.
Proof.
  induction m as [|[k' v'] r IH]; cbn; [intros _ v []|]. destruct (N.eqb_spec k k') as [->|Hn]; [discriminate|].
  intros H v [[= <- <-] | H1]; [congruence | exact (IH H v H1)].
Qed.

(* ------------------------------------------------------------------ handler effects *)
Definition extends (h h' : rhandler) : Prop := exists ext, rh_log h' = rh_log h ++ ext.
Lemma extends_refl h : extends h h.
Proof. exists []. symmetry. apply app_nil_r. Qed.
Lemma extends_trans a b c : extends a b -> extends b c -> extends a c.
Proof. intros [x Hx] [y Hy]. exists (x ++ y). rewrite Hy, Hx. symmetry. apply app_assoc. Qed.
Lemma extends_created h h' o x : extends h h' -> In (Created o x) (rh_log h) -> In (Created o x) (rh_log h').
Proof. intros [e ->] H. apply in_or_app. left. exact H. Qed.

(* An object located in a later handler is live *)
Lemma still_live h h' o x : inv h' -> extends h h' -> live (rh_log h) o x -> located h' o x -> live (rh_log h') o x.
Proof.
  intros I E [H1 _] Hl. split; [exact (extends_created _ _ _ _ E H1)|].
  pose proof (extends_created _ _ _ _ E H1) as H2. pose proof (in_log _ I) as L.
  assert (Hx : 0 < x) by (apply in_created in H2; apply (li_bound _ _ L) in H2; lia).
  destruct o; cbn in Hl.
  - destruct Hl as [m Hl]. exact (proj2 (proj1 (in_img _ I _ _ _ Hl))).
  - destruct Hl as [v Hl]. destruct (in_img _ I _ _ _ Hl) as [_ [H | H]]; [lia | exact (proj2 H)].
  - exact (proj2 (in_view _ I _ _ Hl)).
  - destruct (in_smp _ I _ _ Hl) as [d' Hd]. exact (proj2 Hd).
  - destruct Hl as [m Hl]. destruct (in_buf _ I _ _ Hl) as (q' & H & _). exact (proj2 H).
  - destruct (in_buf _ I _ _ Hl) as (q' & _ & [H | H]); [lia | exact (proj2 H)].
Qed.

(* Effect of destructions: what is erased from each map *)
Record eff (h h' : rhandler) (di dv ds db : N -> bool) : Prop := {
  ef_inv : inv h -> inv h';
  ef_ext : extends h h';
  ef_img : forall i, mfind i (rh_images h') = if di i then None else mfind i (rh_images h);
  ef_view : forall i, mfind i (rh_views h') = if dv i then None else mfind i (rh_views h);
  ef_smp : forall i, mfind i (rh_samplers h') = if ds i then None else mfind i (rh_samplers h);
  ef_buf : forall i, mfind i (rh_buffers h') = if db i then None else mfind i (rh_buffers h) }.
Definition no : N -> bool := fun _ => false.
Lemma eff_refl h : eff h h no no no no.
Proof. split; try (intros; reflexivity); [intros H; exact H | apply extends_refl]. Qed.
Lemma eff_trans h1 h2 h3 di dv ds db di' dv' ds' db' : eff h1 h2 di dv ds db -> eff h2 h3 di' dv' ds' db' ->
  eff h1 h3 (fun i => orb (di' i) (di i)) (fun i => orb (dv' i) (dv i)) (fun i => orb (ds' i) (ds i)) (fun i => orb (db' i) (db i)).
Proof.
  intros [I1 E1 A1 B1 C1 D1] [I2 E2 A2 B2 C2 D2]. split.
  - intros H. exact (I2 (I1 H)).
  - exact (extends_trans _ _ _ E1 E2).
  - intros i. rewrite A2, A1. destruct (di' i); reflexivity.
  - intros i. rewrite B2, B1. destruct (dv' i); reflexivity.
  - intros i. rewrite C2, C1. destruct (ds' i); reflexivity.
  - intros i. rewrite D2, D1. destruct (db' i); reflexivity.
Qed.
Lemma eff_ext_d h h' di dv ds db di' dv' ds' db' : eff h h' di dv ds db ->
  (forall i, di i = di' i) -> (forall i, dv i = dv' i) -> (forall i, ds i = ds' i) -> (forall i, db i = db' i) -> eff h h' di' dv' ds' db'.
Proof.
  intros [I1 E1 A1 B1 C1 D1] H1 H2 H3 H4. split; [exact I1 | exact E1 | | | |]; intros i.
  - rewrite <- H1. apply A1.
  - rewrite <- H2. apply B1.
  - rewrite <- H3. apply C1.
  - rewrite <- H4. apply D1.
Qed.
Lemma vkd_extends h y : extends h (vk_destroy h y).
Proof. unfold vk_destroy. destruct (N.eqb y 0); [apply extends_refl | eexists; reflexivity]. Qed.

Lemma eff_destroyImage h i : eff h (rh_destroyImage h i) (fun j => N.eqb j i) no no no.
Proof.
  split.
  - apply inv_destroyImage.
  - unfold rh_destroyImage. destruct (mfind i (rh_images h)) as [[v m]|]; [|apply extends_refl].
    apply (extends_trans _ _ _ (vkd_extends h m)). apply vkd_extends.
  - intros j. unfold rh_destroyImage. destruct (mfind i (rh_images h)) as [[v m]|] eqn:E.
    + cbn. rewrite mfind_merase, !vkd_images. reflexivity.
    + destruct (N.eqb_spec j i) as [->|]; [exact E | reflexivity].
  - intros j. unfold rh_destroyImage. destruct (mfind i (rh_images h)) as [[v m]|]; [cbn; rewrite !vkd_views; reflexivity | reflexivity].
  - intros j. unfold rh_destroyImage. destruct (mfind i (rh_images h)) as [[v m]|]; [cbn; rewrite !vkd_samplers; reflexivity | reflexivity].
  - intros j. unfold rh_destroyImage. destruct (mfind i (rh_images h)) as [[v m]|]; [cbn; rewrite !vkd_buffers; reflexivity | reflexivity].
Qed.
Lemma eff_destroyView h i : eff h (rh_destroyImageView h i) no (fun j => N.eqb j i) no no.
Proof.
  split.
  - apply inv_destroyView.
  - unfold rh_destroyImageView. destruct (mfind i (rh_views h)) as [v|]; [|apply extends_refl]. apply (vkd_extends h v).
  - intros j. unfold rh_destroyImageView. destruct (mfind i (rh_views h)) as [v|]; [cbn; rewrite !vkd_images; reflexivity | reflexivity].
  - intros j. unfold rh_destroyImageView. destruct (mfind i (rh_views h)) as [v|] eqn:E.
    + cbn. rewrite mfind_merase, !vkd_views. reflexivity.
    + destruct (N.eqb_spec j i) as [->|]; [exact E | reflexivity].
  - intros j. unfold rh_destroyImageView. destruct (mfind i (rh_views h)) as [v|]; [cbn; rewrite !vkd_samplers; reflexivity | reflexivity].
  - intros j. unfold rh_destroyImageView. destruct (mfind i (rh_views h)) as [v|]; [cbn; rewrite !vkd_buffers; reflexivity | reflexivity].
Qed.
Lemma eff_destroySampler h i : eff h (rh_destroySampler h i) no no (fun j => N.eqb j i) no.
Proof.
  split.
  - apply inv_destroySampler.
  - unfold rh_destroySampler. destruct (mfind i (rh_samplers h)) as [v|]; [|apply extends_refl]. apply (vkd_extends h i).
  - intros j. unfold rh_destroySampler. destruct (mfind i (rh_samplers h)) as [v|]; [cbn; rewrite !vkd_images; reflexivity | reflexivity].
  - intros j. unfold rh_destroySampler. destruct (mfind i (rh_samplers h)) as [v|]; [cbn; rewrite !vkd_views; reflexivity | reflexivity].
  - intros j. unfold rh_destroySampler. destruct (mfind i (rh_samplers h)) as [v|] eqn:E.
    + cbn. rewrite mfind_merase, !vkd_samplers. reflexivity.
    + destruct (N.eqb_spec j i) as [->|]; [exact E | reflexivity].
  - intros j. unfold rh_destroySampler. destruct (mfind i (rh_samplers h)) as [v|]; [cbn; rewrite !vkd_buffers; reflexivity | reflexivity].
Qed.
Lemma eff_destroyBuffer h i : eff h (rh_destroyVertexBuffer h i) no no no (fun j => N.eqb j i).
Proof.
  split.
  - apply inv_destroyBuffer.
  - unfold rh_destroyVertexBuffer. destruct (mfind i (rh_buffers h)) as [m|]; [|apply extends_refl].
    apply (extends_trans _ _ _ (vkd_extends h m)). apply vkd_extends.
  - intros j. unfold rh_destroyVertexBuffer. destruct (mfind i (rh_buffers h)) as [v|]; [cbn; rewrite !vkd_images; reflexivity | reflexivity].
  - intros j. unfold rh_destroyVertexBuffer. destruct (mfind i (rh_buffers h)) as [v|]; [cbn; rewrite !vkd_views; reflexivity | reflexivity].
  - intros j. unfold rh_destroyVertexBuffer. destruct (mfind i (rh_buffers h)) as [v|]; [cbn; rewrite !vkd_samplers; reflexivity | reflexivity].
  - intros j. unfold rh_destroyVertexBuffer. destruct (mfind i (rh_buffers h)) as [v|] eqn:E.
    + cbn. rewrite mfind_merase, !vkd_buffers. reflexivity.
    + destruct (N.eqb_spec j i) as [->|]; [exact E | reflexivity].
Qed.

Definition memb (l : list N) (i : N) : bool := existsb (N.eqb i) l.
Lemma memb_In l i : memb l i = true <-> In i l.
Proof. apply existsb_eqb_In. Qed.
Lemma eff_fold {A} (f : A -> N) (g : rhandler -> N -> rhandler) (sel : (N -> bool) -> (N -> bool) * (N -> bool) * (N -> bool) * (N -> bool)) :
  (forall d d', (forall i, d i = d' i) -> forall h h', (let '(a, b, c, e) := sel d in eff h h' a b c e) -> (let '(a, b, c, e) := sel d' in eff h h' a b c e)) ->
  (forall h, let '(a, b, c, e) := sel no in eff h h a b c e) ->
  (forall d d' h1 h2 h3, (let '(a, b, c, e) := sel d in eff h1 h2 a b c e) -> (let '(a, b, c, e) := sel d' in eff h2 h3 a b c e) ->
     let '(a, b, c, e) := sel (fun i => orb (d i) (d' i)) in eff h1 h3 a b c e) ->
  (forall h x, let '(a, b, c, e) := sel (fun j => N.eqb j x) in eff h (g h x) a b c e) ->
  forall l h, let '(a, b, c, e) := sel (memb (map f l)) in eff h (fold_left (fun h x => g h (f x)) l h) a b c e.
Proof.
  intros Hext Hno Hor Hone. induction l as [|x r IH]; intros h; cbn [fold_left map].
  - apply (Hext no); [intros; reflexivity | apply Hno].
  - apply (Hext (fun i => orb (N.eqb i (f x)) (memb (map f r) i))); [intros; reflexivity|].
    apply (Hor (fun i => N.eqb i (f x)) (memb (map f r)) h (g h (f x))); [apply Hone | apply IH].
Qed.
Lemma orb_no (d d' : N -> bool) : (forall i, d i = false) -> forall i, orb (d i) (d' i) = d' i.
Proof. intros H i. rewrite H. reflexivity. Qed.

Lemma eff_cc_destroy h c : eff h (cc_destroy h c)
  (memb (map fst (cc_images c))) (memb (map fst (cc_views c))) (memb (map snd (cc_samplers c))) (memb (map snd (cc_buffers c))).
Proof.
  unfold cc_destroy.
  pose proof (eff_fold (A := N * N) fst rh_destroyImageView (fun d => (no, d, no, no))) as F1.
  pose proof (eff_fold (A := N * N) fst rh_destroyImage (fun d => (d, no, no, no))) as F2.
  pose proof (eff_fold (A := N * N) snd rh_destroySampler (fun d => (no, no, d, no))) as F3.
  pose proof (eff_fold (A := N * N) snd rh_destroyVertexBuffer (fun d => (no, no, no, d))) as F4.
  cbv beta iota in F1, F2, F3, F4.
  specialize (fun a => F1 a eff_refl). specialize (fun a => F2 a eff_refl). specialize (fun a => F3 a eff_refl). specialize (fun a => F4 a eff_refl).
  set (h1 := fold_left (fun h e => rh_destroyImageView h (fst e)) (cc_views c) h).
  set (h2 := fold_left (fun h e => rh_destroyImage h (fst e)) (cc_images c) h1).
  set (h3 := fold_left (fun h e => rh_destroySampler h (snd e)) (cc_samplers c) h2).
  assert (E1 : eff h h1 no (memb (map fst (cc_views c))) no no).
  { apply F1.
    - intros d d' E a b H. apply (eff_ext_d _ _ _ _ _ _ _ _ _ _ H); auto.
    - intros d d' a b e H H'. apply (eff_ext_d _ _ _ _ _ _ _ _ _ _ (eff_trans _ _ _ _ _ _ _ _ _ _ _ H H')); intros; cbn; try reflexivity. apply Bool.orb_comm.
    - apply eff_destroyView. }
  assert (E2 : eff h1 h2 (memb (map fst (cc_images c))) no no no).
  { apply F2.
    - intros d d' E a b H. apply (eff_ext_d _ _ _ _ _ _ _ _ _ _ H); auto.
    - intros d d' a b e H H'. apply (eff_ext_d _ _ _ _ _ _ _ _ _ _ (eff_trans _ _ _ _ _ _ _ _ _ _ _ H H')); intros; cbn; try reflexivity. apply Bool.orb_comm.
    - apply eff_destroyImage. }
  assert (E3 : eff h2 h3 no no (memb (map snd (cc_samplers c))) no).
  { apply F3.
    - intros d d' E a b H. apply (eff_ext_d _ _ _ _ _ _ _ _ _ _ H); auto.
    - intros d d' a b e H H'. apply (eff_ext_d _ _ _ _ _ _ _ _ _ _ (eff_trans _ _ _ _ _ _ _ _ _ _ _ H H')); intros; cbn; try reflexivity. apply Bool.orb_comm.
    - apply eff_destroySampler. }
  assert (E4 : eff h3 (fold_left (fun h e => rh_destroyVertexBuffer h (snd e)) (cc_buffers c) h3) no no no (memb (map snd (cc_buffers c)))).
  { apply F4.
    - intros d d' E a b H. apply (eff_ext_d _ _ _ _ _ _ _ _ _ _ H); auto.
    - intros d d' a b e H H'. apply (eff_ext_d _ _ _ _ _ _ _ _ _ _ (eff_trans _ _ _ _ _ _ _ _ _ _ _ H H')); intros; cbn; try reflexivity. apply Bool.orb_comm.
    - apply eff_destroyBuffer. }
  apply (eff_ext_d _ _ _ _ _ _ _ _ _ _ (eff_trans _ _ _ _ _ _ _ _ _ _ _ (eff_trans _ _ _ _ _ _ _ _ _ _ _ (eff_trans _ _ _ _ _ _ _ _ _ _ _ E1 E2) E3) E4)); intros i; unfold no; cbn;
    rewrite ?Bool.orb_false_r; reflexivity.
Qed.

(* All the contexts of one ResourcesCache *)
Definition of_rc (rc : N) (l : list (ckey * ccache)) := filter (fun e => N.eqb (fst (fst e)) rc) l.
Definition gathered (f : ccache -> list N) (rc : N) (l : list (ckey * ccache)) : list N := flat_map (fun e => f (snd e)) (of_rc rc l).
Lemma eff_destroy_rc rc : forall l h,
  eff h (fold_left (fun h e => if N.eqb (fst (fst e)) rc then cc_destroy h (snd e) else h) l h)
      (memb (gathered (fun c => map fst (cc_images c)) rc l)) (memb (gathered (fun c => map fst (cc_views c)) rc l))
      (memb (gathered (fun c => map snd (cc_samplers c)) rc l)) (memb (gathered (fun c => map snd (cc_buffers c)) rc l)).
Proof.
  induction l as [|e r IH]; intros h; cbn [fold_left]; [apply eff_refl|].
  unfold gathered, of_rc in *. cbn [filter]. destruct (N.eqb (fst (fst e)) rc) eqn:E; [|apply IH].
  cbn [flat_map].
  apply (eff_ext_d _ _ _ _ _ _ _ _ _ _ (eff_trans _ _ _ _ _ _ _ _ _ _ _ (eff_cc_destroy h (snd e)) (IH _)));
    intros i; unfold memb; rewrite existsb_app; apply Bool.orb_comm.
Qed.
Lemma in_gathered (f : ccache -> nmap N) (g : N * N -> N) rc l y :
  In y (gathered (fun c => map g (f c)) rc l) <-> exists cx a x, ref f l (rc, cx) a x /\ g (a, x) = y.
Proof.
  unfold gathered, of_rc, ref. rewrite in_flat_map. split.
  - intros ([[rc' cx] c] & H1 & H2). apply filter_In in H1 as [H1 H3]. cbn in H3. apply N.eqb_eq in H3 as ->.
    apply in_map_iff in H2 as ([a x] & H2 & H4). exists cx, a, x. split; [|exact H2]. exists c. split; assumption.
  - intros (cx & a & x & (c & H1 & H2) & H3). exists ((rc, cx), c). split.
    + apply filter_In. split; [exact H1|]. cbn. apply N.eqb_refl.
    + apply in_map_iff. exists (a, x). split; assumption.
Qed.
