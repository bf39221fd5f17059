(* Proofs about the resource handler: C31, C32, C55. *)
From Coq Require Import Lia ZifyBool ZifyNat ZifyN.
From Verif Require Import Spec_Res Proof_Layout.
Local Open Scope N_scope.

Lemma created_app a b : created (a ++ b) = created a ++ created b.
Proof. apply flat_map_app. Qed.
Lemma destroyed_app a b : destroyed (a ++ b) = destroyed a ++ destroyed b.
Proof. apply flat_map_app. Qed.

Lemma in_created o x log : In (Created o x) log -> In x (created log).
Proof. intros H. apply in_flat_map. exists (Created o x). split; [assumption | left; reflexivity]. Qed.
Lemma created_in x log : In x (created log) -> exists o, In (Created o x) log.
Proof. intros H. apply in_flat_map in H as ([o y | y] & H1 & H2); [destruct H2 as [-> | []] | destruct H2]. exists o. exact H1. Qed.

Definition live (log : list event) (o : object) (x : N) : Prop := In (Created o x) log /\ ~ In x (destroyed log).

Record linv (log : list event) (next : N) : Prop := {
  li_next : 0 < next;
  li_bound : forall x, In x (created log) -> 0 < x < next;
  li_nodup : NoDup (created log);
  li_dnodup : NoDup (destroyed log);
  li_causal : forall l1 x l2, log = l1 ++ Destroyed x :: l2 -> In x (created l1) }.

Lemma linv_destroyed log next x : linv log next -> In x (destroyed log) -> In x (created log).
Proof.
  intros L H. apply in_flat_map in H as ([o y | y] & H1 & H2); [destruct H2 | destruct H2 as [-> | []]].
  apply in_split in H1 as (l1 & l2 & ->). rewrite created_app. apply in_or_app. left.
  exact (li_causal _ _ L l1 x l2 eq_refl).
Qed.

Lemma NoDup_snoc {A} (l : list A) x : NoDup l -> ~ In x l -> NoDup (l ++ [x]).
Proof.
  intros H1 H2. apply NoDup_rev in H1. rewrite <- (rev_involutive l), <- (rev_involutive [x]), <- rev_app_distr.
  apply NoDup_rev. cbn. constructor; [rewrite <- in_rev; assumption | assumption].
Qed.

Lemma split_snoc {A} (l : list A) y l1 x l2 : l ++ [y] = l1 ++ x :: l2 ->
  (l2 = [] /\ x = y /\ l1 = l) \/ exists l2', l2 = l2' ++ [y] /\ l = l1 ++ x :: l2'.
Proof.
  destruct (@exists_last _ (x :: l2)) as (l' & z & E); [discriminate|]. intros H.
  rewrite E in H. rewrite app_assoc in H. apply app_inj_tail in H as [H ->].
  destruct l' as [|a l']; cbn in E.
  - inversion E; subst. left. rewrite app_nil_r. repeat split.
  - inversion E; subst. right. exists l'. split; [reflexivity|]. first [assumption | reflexivity].
Qed.

Lemma linv_create log next o : linv log next -> linv (log ++ [Created o next]) (next + 1).
Proof.
  intros L. split.
  - pose proof (li_next _ _ L). lia.
  - intros x H. rewrite created_app in H. apply in_app_or in H as [H | [<- | []]].
    + apply (li_bound _ _ L) in H. lia.
    + pose proof (li_next _ _ L). lia.
  - rewrite created_app. apply NoDup_snoc; [exact (li_nodup _ _ L)|]. intros H. apply (li_bound _ _ L) in H. lia.
  - rewrite destroyed_app. cbn. rewrite app_nil_r. exact (li_dnodup _ _ L).
  - intros l1 x l2 E. apply split_snoc in E as [(-> & E & ->) | (l2' & -> & E)]; [discriminate|].
    exact (li_causal _ _ L _ _ _ E).
Qed.
Lemma linv_destroy log next x : linv log next -> In x (created log) -> ~ In x (destroyed log) -> linv (log ++ [Destroyed x]) next.
Proof.
  intros L H1 H2. split.
  - exact (li_next _ _ L).
  - intros y H. rewrite created_app in H. cbn in H. rewrite app_nil_r in H. exact (li_bound _ _ L _ H).
  - rewrite created_app. cbn. rewrite app_nil_r. exact (li_nodup _ _ L).
  - rewrite destroyed_app. apply NoDup_snoc; [exact (li_dnodup _ _ L) | exact H2].
  - intros l1 y l2 E. apply split_snoc in E as [(-> & E & ->) | (l2' & -> & E)].
    + inversion E; subst. exact H1.
    + exact (li_causal _ _ L _ _ _ E).
Qed.

Lemma live_create log next o o' x : linv log next ->
  (live (log ++ [Created o next]) o' x <-> live log o' x \/ (o' = o /\ x = next)).
Proof.
  intros L. unfold live. rewrite destroyed_app. cbn. rewrite app_nil_r, in_app_iff. cbn. split.
  - intros ([H | [E | []]] & H2); [left; split; assumption|]. inversion E; subst. right. split; reflexivity.
  - intros [[H1 H2] | [-> ->]].
    + split; [left; assumption | assumption].
    + split; [right; left; reflexivity|]. intros H. apply (linv_destroyed _ _ _ L) in H. apply (li_bound _ _ L) in H. lia.
Qed.
Lemma live_destroy log y o x : live (log ++ [Destroyed y]) o x <-> live log o x /\ x <> y.
Proof.
  unfold live. rewrite destroyed_app, !in_app_iff. cbn. split.
  - intros ([H | [E | []]] & H2); [|discriminate]. split; [split; [assumption | intros ?; apply H2; left; assumption]|].
    intros ->. apply H2. right. left. reflexivity.
  - intros [[H1 H2] H3]. split; [left; assumption|]. intros [H | [<- | []]]; [exact (H2 H) | exact (H3 eq_refl)].
Qed.

Lemma NoDup_created_unique : forall log o o' x, NoDup (created log) -> In (Created o x) log -> In (Created o' x) log -> o = o'.
Proof.
  induction log as [|e r IH]; [intros ? ? ? _ []|]. intros o o' x Hn H1 H2. destruct e as [oe h|h].
  - cbn in Hn. apply NoDup_cons_iff in Hn as [Hn1 Hn2].
    destruct H1 as [E1 | H1], H2 as [E2 | H2].
    + congruence.
    + inversion E1; subst. exfalso. apply Hn1. apply (in_created o'). exact H2.
    + inversion E2; subst. exfalso. apply Hn1. apply (in_created o). exact H1.
    + exact (IH _ _ _ Hn2 H1 H2).
  - destruct H1 as [E1 | H1]; [discriminate|]. destruct H2 as [E2 | H2]; [discriminate|]. exact (IH _ _ _ Hn H1 H2).
Qed.
Lemma live_uniq log next o o' x : linv log next -> live log o x -> live log o' x -> o = o'.
Proof. intros L [H1 _] [H2 _]. exact (NoDup_created_unique _ _ _ _ (li_nodup _ _ L) H1 H2). Qed.
Lemma live_pos log next o x : linv log next -> live log o x -> 0 < x < next.
Proof. intros L [H1 _]. apply (li_bound _ _ L). exact (in_created _ _ _ H1). Qed.
Lemma linv_destroy_live log next o x : linv log next -> live log o x -> linv (log ++ [Destroyed x]) next.
Proof. intros L [H1 H2]. apply linv_destroy; [exact L | exact (in_created _ _ _ H1) | exact H2]. Qed.

Lemma mfind_merase {V} k q (m : nmap V) : mfind q (merase k m) = if N.eqb q k then None else mfind q m.
Proof.
  unfold merase. induction m as [|[k' v'] r IH]; cbn; [destruct (N.eqb q k); reflexivity|].
  destruct (N.eqb_spec k' k) as [->|Hn]; cbn.
  - rewrite IH. destruct (N.eqb q k); reflexivity.
  - destruct (N.eqb_spec q k') as [->|Hq].
    + rewrite (proj2 (N.eqb_neq _ _) Hn). reflexivity.
    + exact IH.
Qed.

(* Where a live object is held by the handler *)
Definition located (h : rhandler) (o : object) (x : N) : Prop :=
  match o with
  | OImage i => exists m, mfind i (rh_images h) = Some (x, m)
  | OImageMemory i => exists v, mfind i (rh_images h) = Some (v, x)
  | OView v => mfind v (rh_views h) = Some x
  | OSampler _ => mfind x (rh_samplers h) = Some tt
  | OQuad _ => exists m, mfind x (rh_buffers h) = Some m
  | OQuadMemory b => mfind b (rh_buffers h) = Some x
  end.
Record inv (h : rhandler) : Prop := {
  in_log : linv (rh_log h) (rh_next h);
  in_img : forall i v m, mfind i (rh_images h) = Some (v, m) ->
           live (rh_log h) (OImage i) v /\ (m = 0 \/ live (rh_log h) (OImageMemory i) m);
  in_view : forall v x, mfind v (rh_views h) = Some x -> live (rh_log h) (OView v) x;
  in_smp : forall x u, mfind x (rh_samplers h) = Some u -> exists d, live (rh_log h) (OSampler d) x;
  in_buf : forall b m, mfind b (rh_buffers h) = Some m -> exists q,
           live (rh_log h) (OQuad q) b /\ (m = 0 \/ live (rh_log h) (OQuadMemory b) m);
  in_loc : forall o x, live (rh_log h) o x -> located h o x }.

Lemma inv_new : inv new_rhandler.
Proof.
  split; cbn; try discriminate.
  - split; cbn; try (constructor; fail); try lia; try contradiction. intros l1 x l2 E. destruct l1; discriminate.
  - intros o x [[] _].
Qed.

(* A single object created and put in a map *)
Ltac lc L := rewrite ?(live_create _ _ _ _ _ L) in *.

Lemma inv_createImage h dev i : inv h -> inv (fst (rh_createImage h dev i)).
Proof.
  intros I. unfold rh_createImage. destruct (mfind i (rh_images h)) as [[v m]|] eqn:E; [exact I|].
  destruct I as [L Hi Hv Hs Hb Hl]. cbn.
  pose proof (linv_create _ _ (OImage i) L) as L1. pose proof (li_next _ _ L) as Hnext.
  assert (Hfresh : forall o x, live (rh_log h) o x -> x <> rh_next h) by (intros o x H; apply (live_pos _ _ _ _ L) in H; lia).
  destruct dev; cbn.
  - pose proof (linv_create _ _ (OImageMemory i) L1) as L2.
    assert (Hold : forall o x, live (rh_log h) o x -> live ((rh_log h ++ [Created (OImage i) (rh_next h)]) ++ [Created (OImageMemory i) (rh_next h + 1)]) o x)
      by (intros o x H; apply (live_create _ _ _ _ _ L1); left; apply (live_create _ _ _ _ _ L); left; exact H).
    split; cbn [rh_log rh_next rh_images rh_views rh_samplers rh_buffers set_rimages].
    + exact L2.
    + intros j v m. rewrite mfind_mput. destruct (N.eqb_spec j i) as [->|].
      * intros [= <- <-]. split; [|right].
        -- apply (live_create _ _ _ _ _ L1). left. apply (live_create _ _ _ _ _ L). right. split; reflexivity.
        -- apply (live_create _ _ _ _ _ L1). right. split; reflexivity.
      * intros H. destruct (Hi _ _ _ H) as [H1 H2]. split; [apply Hold; exact H1|]. destruct H2; [left; assumption | right; apply Hold; assumption].
    + intros v x H. apply Hold, Hv, H.
    + intros x u H. destruct (Hs _ _ H) as [d Hd]. exists d. apply Hold, Hd.
    + intros b m H. destruct (Hb _ _ H) as (q & H1 & H2). exists q. split; [apply Hold, H1|]. destruct H2; [left; assumption | right; apply Hold; assumption].
    + intros o x H. apply (live_create _ _ _ _ _ L1) in H as [H | [-> ->]].
      * apply (live_create _ _ _ _ _ L) in H as [H | [-> ->]].
        -- apply Hl in H. destruct o; cbn in *; try exact H; rewrite mfind_mput; destruct (N.eqb_spec image i) as [->|]; try exact H;
             destruct H as [? H]; rewrite E in H; discriminate.
        -- cbn. rewrite mfind_mput_same. eexists. reflexivity.
      * cbn. rewrite mfind_mput_same. eexists. reflexivity.
  - assert (Hold : forall o x, live (rh_log h) o x -> live (rh_log h ++ [Created (OImage i) (rh_next h)]) o x)
      by (intros o x H; apply (live_create _ _ _ _ _ L); left; exact H).
    split; cbn [rh_log rh_next rh_images rh_views rh_samplers rh_buffers set_rimages].
    + exact L1.
    + intros j v m. rewrite mfind_mput. destruct (N.eqb_spec j i) as [->|].
      * intros [= <- <-]. split; [|left; reflexivity].
        apply (live_create _ _ _ _ _ L). right. split; reflexivity.
      * intros H. destruct (Hi _ _ _ H) as [H1 H2]. split; [apply Hold; exact H1|]. destruct H2; [left; assumption | right; apply Hold; assumption].
    + intros v x H. apply Hold, Hv, H.
    + intros x u H. destruct (Hs _ _ H) as [d Hd]. exists d. apply Hold, Hd.
    + intros b m H. destruct (Hb _ _ H) as (q & H1 & H2). exists q. split; [apply Hold, H1|]. destruct H2; [left; assumption | right; apply Hold; assumption].
    + intros o x H. apply (live_create _ _ _ _ _ L) in H as [H | [-> ->]].
      * apply Hl in H. destruct o; cbn in *; try exact H; rewrite mfind_mput; destruct (N.eqb_spec image i) as [->|]; try exact H;
             destruct H as [? H]; rewrite E in H; discriminate.
      * cbn. rewrite mfind_mput_same. eexists. reflexivity.
Qed.

Lemma createImage_views h dev i : rh_views (fst (rh_createImage h dev i)) = rh_views h.
Proof. unfold rh_createImage. destruct (mfind i (rh_images h)) as [[v m]|]; [reflexivity|]. destruct dev; reflexivity. Qed.
Lemma createImage_samplers h dev i : rh_samplers (fst (rh_createImage h dev i)) = rh_samplers h.
Proof. unfold rh_createImage. destruct (mfind i (rh_images h)) as [[v m]|]; [reflexivity|]. destruct dev; reflexivity. Qed.
Lemma createImage_buffers h dev i : rh_buffers (fst (rh_createImage h dev i)) = rh_buffers h.
Proof. unfold rh_createImage. destruct (mfind i (rh_images h)) as [[v m]|]; [reflexivity|]. destruct dev; reflexivity. Qed.

Lemma inv_put_view h v : inv h -> mfind v (rh_views h) = None ->
  inv (set_rviews (fst (vk_create h (OView v))) (mput v (rh_next h) (rh_views h))).
Proof.
  intros [L Hi Hv Hs Hb Hl] E. pose proof (linv_create _ _ (OView v) L) as L1.
  assert (Hold : forall o x, live (rh_log h) o x -> live (rh_log h ++ [Created (OView v) (rh_next h)]) o x)
      by (intros o x H; apply (live_create _ _ _ _ _ L); left; exact H).
  split; cbn.
  - exact L1.
  - intros j w m H. destruct (Hi _ _ _ H) as [H1 H2]. split; [apply Hold; exact H1|]. destruct H2; [left; assumption | right; apply Hold; assumption].
  - intros w x. rewrite mfind_mput. destruct (N.eqb_spec w v) as [->|].
    + intros [= <-]. apply (live_create _ _ _ _ _ L). right. split; reflexivity.
    + intros H. apply Hold, Hv, H.
  - intros x u H. destruct (Hs _ _ H) as [d Hd]. exists d. apply Hold, Hd.
  - intros b m H. destruct (Hb _ _ H) as (q & H1 & H2). exists q. split; [apply Hold, H1|]. destruct H2; [left; assumption | right; apply Hold; assumption].
  - intros o x H. apply (live_create _ _ _ _ _ L) in H as [H | [-> ->]].
    + apply Hl in H. destruct o; cbn in *; try exact H. rewrite mfind_mput. destruct (N.eqb_spec view v) as [->|]; [rewrite E in H; discriminate|exact H].
    + cbn. apply mfind_mput_same.
Qed.
Lemma inv_createImageView h dev v i : inv h -> inv (fst (rh_createImageView h dev v i)).
Proof.
  intros I. unfold rh_createImageView. destruct (mfind v (rh_views h)) as [x|] eqn:E; [exact I|].
  pose proof (inv_createImage h dev i I) as I1. pose proof (createImage_views h dev i) as Ev.
  destruct (rh_createImage h dev i) as [h1 r]. cbn [fst] in *. rewrite <- Ev in E.
  exact (inv_put_view h1 v I1 E).
Qed.
Lemma inv_createSampler h d : inv h -> inv (fst (rh_createSampler h d)).
Proof.
  intros [L Hi Hv Hs Hb Hl]. pose proof (linv_create _ _ (OSampler d) L) as L1.
  assert (Hold : forall o x, live (rh_log h) o x -> live (rh_log h ++ [Created (OSampler d) (rh_next h)]) o x)
      by (intros o x H; apply (live_create _ _ _ _ _ L); left; exact H).
  split; cbn.
  - exact L1.
  - intros j w m H. destruct (Hi _ _ _ H) as [H1 H2]. split; [apply Hold; exact H1|]. destruct H2; [left; assumption | right; apply Hold; assumption].
  - intros w x H. apply Hold, Hv, H.
  - intros x u. rewrite mfind_minsert. destruct (mfind x (rh_samplers h)) as [u'|] eqn:E.
    + intros _. destruct (Hs _ _ E) as [d' Hd]. exists d'. apply Hold, Hd.
    + destruct (N.eqb_spec x (rh_next h)) as [->|]; [|intros; discriminate]. intros _. exists d. apply (live_create _ _ _ _ _ L). right. split; reflexivity.
  - intros b m H. destruct (Hb _ _ H) as (q & H1 & H2). exists q. split; [apply Hold, H1|]. destruct H2; [left; assumption | right; apply Hold; assumption].
  - intros o x H. apply (live_create _ _ _ _ _ L) in H as [H | [-> ->]].
    + apply Hl in H. destruct o; cbn in *; try exact H. rewrite mfind_minsert, H. reflexivity.
    + cbn. rewrite mfind_minsert. destruct (mfind (rh_next h) (rh_samplers h)) as [[]|]; [reflexivity|]. rewrite N.eqb_refl. reflexivity.
Qed.
Lemma inv_createQuad h dev q : inv h -> inv (fst (rh_createQuad h dev q)).
Proof.
  intros [L Hi Hv Hs Hb Hl]. pose proof (linv_create _ _ (OQuad q) L) as L1.
  assert (Hfresh : mfind (rh_next h) (rh_buffers h) = None).
  { destruct (mfind (rh_next h) (rh_buffers h)) as [m|] eqn:E; [|reflexivity]. destruct (Hb _ _ E) as (q' & H & _).
    apply (live_pos _ _ _ _ L) in H. lia. }
  unfold rh_createQuad. destruct dev; cbn.
  - pose proof (linv_create _ _ (OQuadMemory (rh_next h)) L1) as L2.
    assert (Hold : forall o x, live (rh_log h) o x -> live ((rh_log h ++ [Created (OQuad q) (rh_next h)]) ++ [Created (OQuadMemory (rh_next h)) (rh_next h + 1)]) o x)
      by (intros o x H; apply (live_create _ _ _ _ _ L1); left; apply (live_create _ _ _ _ _ L); left; exact H).
    split; cbn [rh_log rh_next rh_images rh_views rh_samplers rh_buffers set_rbuffers].
    + exact L2.
    + intros j w m H. destruct (Hi _ _ _ H) as [H1 H2]. split; [apply Hold; exact H1|]. destruct H2; [left; assumption | right; apply Hold; assumption].
    + intros v x H. apply Hold, Hv, H.
    + intros x u H. destruct (Hs _ _ H) as [d Hd]. exists d. apply Hold, Hd.
    + intros b m. rewrite mfind_mput. destruct (N.eqb_spec b (rh_next h)) as [->|].
      * intros [= <-]. exists q. split; [|right].
        -- apply (live_create _ _ _ _ _ L1). left. apply (live_create _ _ _ _ _ L). right. split; reflexivity.
        -- apply (live_create _ _ _ _ _ L1). right. split; reflexivity.
      * intros H. destruct (Hb _ _ H) as (q' & H1 & H2). exists q'. split; [apply Hold, H1|]. destruct H2; [left; assumption | right; apply Hold; assumption].
    + intros o x H. apply (live_create _ _ _ _ _ L1) in H as [H | [-> ->]].
      * apply (live_create _ _ _ _ _ L) in H as [H | [-> ->]].
        -- apply Hl in H. destruct o; cbn in *; try exact H.
           ++ rewrite mfind_mput. destruct (N.eqb_spec x (rh_next h)); [eexists; reflexivity | exact H].
           ++ rewrite mfind_mput. destruct (N.eqb_spec buffer (rh_next h)) as [->|]; [rewrite Hfresh in H; discriminate | exact H].
        -- cbn. rewrite mfind_mput_same. eexists. reflexivity.
      * cbn. apply mfind_mput_same.
  - assert (Hold : forall o x, live (rh_log h) o x -> live (rh_log h ++ [Created (OQuad q) (rh_next h)]) o x)
      by (intros o x H; apply (live_create _ _ _ _ _ L); left; exact H).
    split; cbn [rh_log rh_next rh_images rh_views rh_samplers rh_buffers set_rbuffers].
    + exact L1.
    + intros j w m H. destruct (Hi _ _ _ H) as [H1 H2]. split; [apply Hold; exact H1|]. destruct H2; [left; assumption | right; apply Hold; assumption].
    + intros v x H. apply Hold, Hv, H.
    + intros x u H. destruct (Hs _ _ H) as [d Hd]. exists d. apply Hold, Hd.
    + intros b m. rewrite mfind_mput. destruct (N.eqb_spec b (rh_next h)) as [->|].
      * intros [= <-]. exists q. split; [|left; reflexivity]. apply (live_create _ _ _ _ _ L). right. split; reflexivity.
      * intros H. destruct (Hb _ _ H) as (q' & H1 & H2). exists q'. split; [apply Hold, H1|]. destruct H2; [left; assumption | right; apply Hold; assumption].
    + intros o x H. apply (live_create _ _ _ _ _ L) in H as [H | [-> ->]].
      * apply Hl in H. destruct o; cbn in *; try exact H.
        ++ rewrite mfind_mput. destruct (N.eqb_spec x (rh_next h)); [eexists; reflexivity | exact H].
        ++ rewrite mfind_mput. destruct (N.eqb_spec buffer (rh_next h)) as [->|]; [rewrite Hfresh in H; discriminate | exact H].
      * cbn. rewrite mfind_mput_same. eexists. reflexivity.
Qed.

(* ------------------------------------------------------------------ destructions *)
Lemma vkd_live h y o x : linv (rh_log h) (rh_next h) -> (live (rh_log (vk_destroy h y)) o x <-> live (rh_log h) o x /\ x <> y).
Proof.
  intros L. unfold vk_destroy. destruct (N.eqb_spec y 0) as [->|]; [|apply live_destroy].
  split; [intros H; split; [exact H|] | intros [H _]; exact H]. apply (live_pos _ _ _ _ L) in H. lia.
Qed.
Lemma vkd_linv h y : linv (rh_log h) (rh_next h) -> (y = 0 \/ exists o, live (rh_log h) o y) ->
  linv (rh_log (vk_destroy h y)) (rh_next (vk_destroy h y)).
Proof.
  intros L H. unfold vk_destroy. destruct (N.eqb_spec y 0) as [|Hn]; [exact L|]. destruct H as [H | [o H]]; [contradiction|].
  exact (linv_destroy_live _ _ _ _ L H).
Qed.
Lemma vkd_images h y : rh_images (vk_destroy h y) = rh_images h.
Proof. unfold vk_destroy. destruct (N.eqb y 0); reflexivity. Qed.
Lemma vkd_views h y : rh_views (vk_destroy h y) = rh_views h.
Proof. unfold vk_destroy. destruct (N.eqb y 0); reflexivity. Qed.
Lemma vkd_samplers h y : rh_samplers (vk_destroy h y) = rh_samplers h.
Proof. unfold vk_destroy. destruct (N.eqb y 0); reflexivity. Qed.
Lemma vkd_buffers h y : rh_buffers (vk_destroy h y) = rh_buffers h.
Proof. unfold vk_destroy. destruct (N.eqb y 0); reflexivity. Qed.

Lemma inv_destroyImage h i : inv h -> inv (rh_destroyImage h i).
Proof.
  intros I. unfold rh_destroyImage. destruct (mfind i (rh_images h)) as [[v m]|] eqn:E; [|exact I].
  destruct I as [L Hi Hv Hs Hb Hl]. destruct (Hi _ _ _ E) as [Hlv Hlm].
  assert (L1 : linv (rh_log (vk_destroy h m)) (rh_next (vk_destroy h m))).
  { apply vkd_linv; [exact L|]. destruct Hlm; [left; assumption | right; eexists; eassumption]. }
  assert (Hvm : v <> m).
  { intros ->. destruct Hlm as [-> | Hlm]; [apply (live_pos _ _ _ _ L) in Hlv; lia|]. pose proof (live_uniq _ _ _ _ _ L Hlv Hlm). discriminate. }
  assert (L2 : linv (rh_log (vk_destroy (vk_destroy h m) v)) (rh_next (vk_destroy (vk_destroy h m) v))).
  { apply vkd_linv; [exact L1|]. right. exists (OImage i). apply (vkd_live _ _ _ _ L). split; assumption. }
  assert (Hold : forall o x, live (rh_log (vk_destroy (vk_destroy h m) v)) o x <-> live (rh_log h) o x /\ x <> m /\ x <> v).
  { intros o x. rewrite (vkd_live _ _ _ _ L1), (vkd_live _ _ _ _ L). tauto. }
  assert (Hkeep : forall o x, o <> OImage i -> o <> OImageMemory i -> live (rh_log h) o x -> live (rh_log (vk_destroy (vk_destroy h m) v)) o x).
  { intros o x N1 N2 H. apply Hold. split; [exact H|]. split; intros ->.
    - destruct Hlm as [-> | Hlm]; [apply (live_pos _ _ _ _ L) in H; lia|]. exact (N2 (live_uniq _ _ _ _ _ L H Hlm)).
    - exact (N1 (live_uniq _ _ _ _ _ L H Hlv)). }
  cbv zeta. split; cbn [rh_log rh_next rh_images rh_views rh_samplers rh_buffers set_rimages].
  - exact L2.
  - intros j w n. rewrite mfind_merase, !vkd_images. destruct (N.eqb_spec j i) as [|Hn]; [discriminate|]. intros H.
    destruct (Hi _ _ _ H) as [H1 H2]. split; [apply Hkeep; [congruence | discriminate | exact H1]|].
    destruct H2 as [H2 | H2]; [left; exact H2 | right; apply Hkeep; [discriminate | congruence | exact H2]].
  - intros w x. rewrite !vkd_views. intros H. apply Hkeep; [discriminate | discriminate | exact (Hv _ _ H)].
  - intros x u. rewrite !vkd_samplers. intros H. destruct (Hs _ _ H) as [d Hd]. exists d. apply Hkeep; [discriminate | discriminate | exact Hd].
  - intros b n. rewrite !vkd_buffers. intros H. destruct (Hb _ _ H) as (q & H1 & H2). exists q.
    split; [apply Hkeep; [discriminate | discriminate | exact H1]|].
    destruct H2 as [H2 | H2]; [left; exact H2 | right; apply Hkeep; [discriminate | discriminate | exact H2]].
  - intros o x H. apply Hold in H as (H & N1 & N2). apply Hl in H.
    destruct o; cbn in *; rewrite ?vkd_images, ?vkd_views, ?vkd_samplers, ?vkd_buffers, ?mfind_merase; try exact H;
      destruct (N.eqb_spec image i) as [->|]; try exact H; destruct H as [? H]; rewrite E in H; congruence.
Qed.
Lemma inv_destroyView h i : inv h -> inv (rh_destroyImageView h i).
Proof.
  intros I. unfold rh_destroyImageView. destruct (mfind i (rh_views h)) as [v|] eqn:E; [|exact I].
  destruct I as [L Hi Hv Hs Hb Hl]. pose proof (Hv _ _ E) as Hlv.
  assert (L1 : linv (rh_log (vk_destroy h v)) (rh_next (vk_destroy h v))).
  { apply vkd_linv; [exact L|]. right; eexists; eassumption. }
  assert (Hkeep : forall o x, o <> OView i -> live (rh_log h) o x -> live (rh_log (vk_destroy h v)) o x).
  { intros o x N1 H. apply (vkd_live _ _ _ _ L). split; [exact H|]. intros ->. exact (N1 (live_uniq _ _ _ _ _ L H Hlv)). }
  cbv zeta. split; cbn [rh_log rh_next rh_images rh_views rh_samplers rh_buffers set_rviews].
  - exact L1.
  - intros j w n. rewrite !vkd_images. intros H.
    destruct (Hi _ _ _ H) as [H1 H2]. split; [apply Hkeep; [discriminate | exact H1]|].
    destruct H2 as [H2 | H2]; [left; exact H2 | right; apply Hkeep; [discriminate | exact H2]].
  - intros w x. rewrite mfind_merase, !vkd_views. destruct (N.eqb_spec w i) as [|Hn]; [discriminate|]. intros H. apply Hkeep; [congruence | exact (Hv _ _ H)].
  - intros x u. rewrite !vkd_samplers. intros H. destruct (Hs _ _ H) as [d Hd]. exists d. apply Hkeep; [discriminate | exact Hd].
  - intros b n. rewrite !vkd_buffers. intros H. destruct (Hb _ _ H) as (q & H1 & H2). exists q.
    split; [apply Hkeep; [discriminate | exact H1]|].
    destruct H2 as [H2 | H2]; [left; exact H2 | right; apply Hkeep; [discriminate | exact H2]].
  - intros o x H. apply (vkd_live _ _ _ _ L) in H as (H & N1). apply Hl in H.
    destruct o; cbn in *; rewrite ?vkd_images, ?vkd_views, ?vkd_samplers, ?vkd_buffers, ?mfind_merase; try exact H.
    destruct (N.eqb_spec view i) as [->|]; [rewrite E in H; congruence | exact H].
Qed.
Lemma inv_destroySampler h s : inv h -> inv (rh_destroySampler h s).
Proof.
  intros I. unfold rh_destroySampler. destruct (mfind s (rh_samplers h)) as [u|] eqn:E; [|exact I].
  destruct I as [L Hi Hv Hs Hb Hl]. destruct (Hs _ _ E) as [d Hlv].
  assert (L1 : linv (rh_log (vk_destroy h s)) (rh_next (vk_destroy h s))).
  { apply vkd_linv; [exact L|]. right; eexists; eassumption. }
  assert (Hkeep : forall o x, o <> OSampler d -> live (rh_log h) o x -> live (rh_log (vk_destroy h s)) o x).
  { intros o x N1 H. apply (vkd_live _ _ _ _ L). split; [exact H|]. intros ->. exact (N1 (live_uniq _ _ _ _ _ L H Hlv)). }
  cbv zeta. split; cbn [rh_log rh_next rh_images rh_views rh_samplers rh_buffers set_rsamplers].
  - exact L1.
  - intros j w n. rewrite !vkd_images. intros H.
    destruct (Hi _ _ _ H) as [H1 H2]. split; [apply Hkeep; [discriminate | exact H1]|].
    destruct H2 as [H2 | H2]; [left; exact H2 | right; apply Hkeep; [discriminate | exact H2]].
  - intros w x. rewrite !vkd_views. intros H. apply Hkeep; [discriminate | exact (Hv _ _ H)].
  - intros x u'. rewrite mfind_merase, !vkd_samplers. destruct (N.eqb_spec x s) as [|Hn]; [discriminate|]. intros H.
    destruct (Hs _ _ H) as [d' Hd]. exists d'. apply (vkd_live _ _ _ _ L). split; assumption.
  - intros b n. rewrite !vkd_buffers. intros H. destruct (Hb _ _ H) as (q & H1 & H2). exists q.
    split; [apply Hkeep; [discriminate | exact H1]|].
    destruct H2 as [H2 | H2]; [left; exact H2 | right; apply Hkeep; [discriminate | exact H2]].
  - intros o x H. apply (vkd_live _ _ _ _ L) in H as (H & N1). apply Hl in H.
    destruct o; cbn in *; rewrite ?vkd_images, ?vkd_views, ?vkd_samplers, ?vkd_buffers, ?mfind_merase; try exact H.
    destruct (N.eqb_spec x s) as [->|]; [congruence | exact H].
Qed.
Lemma inv_destroyBuffer h s : inv h -> inv (rh_destroyVertexBuffer h s).
Proof.
  intros I. unfold rh_destroyVertexBuffer. destruct (mfind s (rh_buffers h)) as [m|] eqn:E; [|exact I].
  destruct I as [L Hi Hv Hs Hb Hl]. destruct (Hb _ _ E) as (q & Hlv & Hlm).
  assert (L1 : linv (rh_log (vk_destroy h m)) (rh_next (vk_destroy h m))).
  { apply vkd_linv; [exact L|]. destruct Hlm; [left; assumption | right; eexists; eassumption]. }
  assert (Hvm : s <> m).
  { intros ->. destruct Hlm as [-> | Hlm]; [apply (live_pos _ _ _ _ L) in Hlv; lia|]. pose proof (live_uniq _ _ _ _ _ L Hlv Hlm). discriminate. }
  assert (L2 : linv (rh_log (vk_destroy (vk_destroy h m) s)) (rh_next (vk_destroy (vk_destroy h m) s))).
  { apply vkd_linv; [exact L1|]. right. exists (OQuad q). apply (vkd_live _ _ _ _ L). split; assumption. }
  assert (Hold : forall o x, live (rh_log (vk_destroy (vk_destroy h m) s)) o x <-> live (rh_log h) o x /\ x <> m /\ x <> s).
  { intros o x. rewrite (vkd_live _ _ _ _ L1), (vkd_live _ _ _ _ L). tauto. }
  assert (Hkeep : forall o x, o <> OQuad q -> o <> OQuadMemory s -> live (rh_log h) o x -> live (rh_log (vk_destroy (vk_destroy h m) s)) o x).
  { intros o x N1 N2 H. apply Hold. split; [exact H|]. split; intros ->.
    - destruct Hlm as [-> | Hlm]; [apply (live_pos _ _ _ _ L) in H; lia|]. exact (N2 (live_uniq _ _ _ _ _ L H Hlm)).
    - exact (N1 (live_uniq _ _ _ _ _ L H Hlv)). }
  cbv zeta. split; cbn [rh_log rh_next rh_images rh_views rh_samplers rh_buffers set_rbuffers].
  - exact L2.
  - intros j w n. rewrite !vkd_images. intros H.
    destruct (Hi _ _ _ H) as [H1 H2]. split; [apply Hkeep; [congruence | discriminate | exact H1]|].
    destruct H2 as [H2 | H2]; [left; exact H2 | right; apply Hkeep; [discriminate | congruence | exact H2]].
  - intros w x. rewrite !vkd_views. intros H. apply Hkeep; [discriminate | discriminate | exact (Hv _ _ H)].
  - intros x u. rewrite !vkd_samplers. intros H. destruct (Hs _ _ H) as [d Hd]. exists d. apply Hkeep; [discriminate | discriminate | exact Hd].
  - intros b n. rewrite mfind_merase, !vkd_buffers. destruct (N.eqb_spec b s) as [|Hn]; [discriminate|]. intros H.
    destruct (Hb _ _ H) as (q' & H1 & H2). exists q'.
    assert (Hbm : b <> m).
    { intros ->. destruct Hlm as [-> | Hlm]; [apply (live_pos _ _ _ _ L) in H1; lia|]. pose proof (live_uniq _ _ _ _ _ L H1 Hlm). discriminate. }
    split; [apply Hold; split; [exact H1 | split; assumption]|].
    destruct H2 as [H2 | H2]; [left; exact H2 | right; apply Hkeep; [discriminate | congruence | exact H2]].
  - intros o x H. apply Hold in H as (H & N1 & N2). apply Hl in H.
    destruct o; cbn in *; rewrite ?vkd_images, ?vkd_views, ?vkd_samplers, ?vkd_buffers, ?mfind_merase; try exact H.
    + destruct (N.eqb_spec x s) as [->|]; [congruence | exact H].
    + destruct (N.eqb_spec buffer s) as [->|]; [rewrite E in H; congruence | exact H].
Qed.
