(* Render passes and framebuffers: what is kept from one use to the next. *)
From Verif Require Import Spec_Target Proof_Layout Proof_Record Proof_Device Proof_Device2 Proof_Device3 Proof_Target Proof_Target2.
From Coq Require Import PeanoNat Permutation.
Local Open Scope N_scope.

Definition kept_data (images : list attach) (size : N * N) (log : list tevent) (i : nat) (d : rdata) : Prop :=
  rd_renderPass d = 0 \/ exists info, In (TRenderPass (rd_renderPass d) info) log /\ ri_deps info = subpass_deps (rd_prev d) (rd_next d) /\
    Forall2 (describes i) (filter isTarget images) (ri_descs info) /\
    Forall2 (fun dd x => ad_initial dd = ls_layout (en_input x) /\ ad_final dd = ls_layout (en_output x)) (ri_descs info) (rd_entries d) /\
    Forall2 (fun a x => en_view x = attach_view a i) (filter isTarget images) (rd_entries d) /\
    rd_attachments d = filter isTarget images /\ rd_clear d = map ia_misc (filter isTarget images) /\ rd_area d = render_area size images.
Definition event_ok (images : list attach) (size : N * N) (log : list tevent) (x : tevent) : Prop :=
  match x with
  | TFramebuffer h r views w ht layers => exists i info, In (TRenderPass r info) log /\ Forall2 (describes i) (filter isTarget images) (ri_descs info) /\
      views = map (fun a => attach_view a i) (filter isTarget images) /\ (w, ht) = render_area size images /\ layers = render_layers images
  | TBegin r f area clears => (exists views w ht layers, In (TFramebuffer f r views w ht layers) log /\ area = (w, ht)) /\ clears = map ia_misc (filter isTarget images)
  | _ => True
  end.
Record kept (images : list attach) (size : N * N) (t : target) : Prop := {
  ke_data : forall i, (i < length (tg_passes t))%nat -> kept_data images size (tg_log t) i (pass_data t i);
  ke_log : forall x, In x (tg_log t) -> event_ok images size (tg_log t) x;
  ke_fb : forall i, (i < length (tg_passes t))%nat -> let d := pass_data t i in rd_framebuffer d <> 0 -> 
     exists views w ht layers, In (TFramebuffer (rd_framebuffer d) (rd_renderPass d) views w ht layers) (tg_log t) /\ rd_area d = (w, ht);
  ke_layers : (exists i, (i < length (tg_passes t))%nat /\ rd_renderPass (pass_data t i) <> 0) -> tg_layers t = render_layers images;
  ke_size : tg_size t = size }.
Lemma nth_set_other {A} (l : list A) : forall i j x d, i <> j -> nth j (set_nth i x l) d = nth j l d.
Proof. induction l as [|y l IH]; intros [|i] [|j] x d H; cbn; try reflexivity; try contradiction. apply IH. lia. Qed.
Lemma kept_data_more images size l l' i d : kept_data images size l i d -> kept_data images size (l ++ l') i d.
Proof. intros [H|(info & A & B)]; [left; exact H|right]. exists info. split; [apply in_or_app; left; exact A|exact B]. Qed.
Lemma event_ok_more images size l l' x : event_ok images size l x -> event_ok images size (l ++ l') x.
Proof.
  destruct x; cbn; auto.
  - intros (i & info & A & B). exists i, info. split; [apply in_or_app; left; exact A|exact B].
  - intros [(views & w & ht & layers & A & B) C]. split; [|exact C]. exists views, w, ht, layers. split; [apply in_or_app; left; exact A|exact B].
Qed.
Lemma cleanup_ok images size log d x : In x (cleanup_events d) -> event_ok images size log x.
Proof. unfold cleanup_events. destruct (N.eqb (rd_framebuffer d) 0), (N.eqb (rd_renderPass d) 0); cbn; intuition; subst; exact I. Qed.

Lemma entries_views e g p i l b : Forall2 (fun a x => en_view x = attach_view a i) (filter isTarget l) (rb_entries b) -> forall a,
  Forall2 (fun a x => en_view x = attach_view a i) (filter isTarget (l ++ [a])) (rb_entries (target_step e g p i b a)) /\ True.
Proof.
  intros H a. split; [|exact I]. rewrite filter_app. cbn [filter]. unfold target_step. destruct (isTarget a); [|rewrite app_nil_r; exact H]. cbn zeta.
  destruct (getCurrentLayoutState g (rb_ctx b) _ _ _) as [c1 cur]. unfold addAttach.
  destruct (orb (isDepthAttach a) (isStencilAttach a)); cbn; (apply Forall2_app; [exact H|constructor; [reflexivity|constructor]]).
Qed.
Lemma build_views e g p i c : Forall2 (fun a x => en_view x = attach_view a i) (filter isTarget (rp_images p)) (rb_entries (build_targets e g p i c)).
Proof.
  unfold build_targets. assert (G : forall l done b, Forall2 (fun a x => en_view x = attach_view a i) (filter isTarget done) (rb_entries b) ->
    Forall2 (fun a x => en_view x = attach_view a i) (filter isTarget (done ++ l)) (rb_entries (fold_left (target_step e g p i) l b))).
  { induction l as [|a l IH]; intros done b H; [rewrite app_nil_r; exact H|]. cbn [fold_left].
    replace (done ++ a :: l) with ((done ++ [a]) ++ l) by (rewrite <- app_assoc; reflexivity). apply IH, (entries_views e g p i done b H a). }
  apply (G _ []). constructor.
Qed.
Lemma Forall2_weak {A B} (R S : A -> B -> Prop) l m : (forall a b, R a b -> S a b) -> Forall2 R l m -> Forall2 S l m.
Proof. intros H. induction 1; constructor; auto. Qed.

Lemma new_kept images size n : kept images size (new_target size n).
Proof.
  assert (E : forall i, pass_data (new_target size n) i = new_rdata).
  { intro i. unfold pass_data. cbn [new_target tg_passes]. revert n. induction i; intros [|n]; try reflexivity. cbn. apply IHi. }
  constructor; cbn [new_target tg_log tg_size].
  - intros i _. rewrite E. left. reflexivity.
  - intros x [].
  - intros i _ H. exfalso. apply H. rewrite E. reflexivity.
  - intros (i & _ & H). rewrite E in H. exfalso. apply H. reflexivity.
  - reflexivity.
Qed.
Lemma kept_init images size e g p i t c : kept images size t -> rp_images p = images -> (i < length (tg_passes t))%nat ->
  let t' := fst (fst (tg_initialise e g p i t c)) in kept images size t' /\ length (tg_passes t') = length (tg_passes t) /\
  (snd (tg_initialise e g p i t c) = false -> t' = t /\ snd (fst (tg_initialise e g p i t c)) = c).
Proof.
  intros [KD KL KF KY KS] Ei Hi. unfold tg_initialise. destruct (andb _ _); cbn [fst snd]; [split; [constructor; assumption|split; [reflexivity|auto]]|].
  cbn zeta. set (b := build_targets e g p i c). set (info := {| ri_descs := _ |}). set (d := pass_data t i).
  set (d' := {| rd_renderPass := tg_nexth t |}). split; [|split; [cbn [tg_passes]; apply set_nth_length|discriminate]].
  destruct (filled_all e g p i c) as [Nx Ds En Cl Bl Co De]. fold b in Nx, Ds, En, Cl, Bl, Co, De.
  assert (Hin : In (TRenderPass (tg_nexth t) info) (tg_log t ++ cleanup_events d ++ [TRenderPass (tg_nexth t) info])).
  { apply in_or_app. right. apply in_or_app. right. left. reflexivity. }
  constructor; cbn [tg_log tg_passes tg_size tg_layers].
  - intros j Hj. rewrite set_nth_length in Hj. unfold pass_data. cbn [tg_passes]. destruct (Nat.eq_dec i j) as [<-|Ne].
    + rewrite nth_set_nth by exact Hi. right. exists info. cbn [d' rd_renderPass rd_prev rd_next rd_entries rd_attachments rd_clear rd_area]. rewrite <- Ei, KS.
      split; [exact Hin|]. split; [reflexivity|]. split; [apply (Forall2_weak _ _ _ _ (fun a dd H => proj1 H) Ds)|]. split; [exact En|].
      split; [apply build_views|]. split; [reflexivity|]. split; [exact Cl|reflexivity].
    + rewrite nth_set_other by exact Ne. apply kept_data_more, (KD j Hj).
  - intros x Hx. apply in_app_or in Hx. destruct Hx as [Hx|Hx]; [apply event_ok_more, KL, Hx|]. apply in_app_or in Hx. destruct Hx as [Hx|[<-|[]]]; [eapply cleanup_ok; exact Hx|exact I].
  - intros j Hj. rewrite set_nth_length in Hj. unfold pass_data. cbn [tg_passes]. destruct (Nat.eq_dec i j) as [<-|Ne].
    + rewrite nth_set_nth by exact Hi. intros H. exfalso. apply H. reflexivity.
    + rewrite nth_set_other by exact Ne. intros H. destruct (KF j Hj H) as (views & w & ht & layers & A & B). exists views, w, ht, layers. split; [apply in_or_app; left; exact A|exact B].
  - intros _. rewrite Ei. reflexivity.
  - exact KS.
Qed.
Lemma kept_framebuffer images size i t : kept images size t -> (i < length (tg_passes t))%nat -> rd_renderPass (pass_data t i) <> 0 ->
  kept images size (fst (tg_framebuffer i t)).
Proof.
  intros [KD KL KF KY KS] Hi Hr. unfold tg_framebuffer. set (d := pass_data t i) in *. destruct (N.eqb_spec (rd_framebuffer d) 0) as [E|E]; cbn [fst]; [|constructor; assumption].
  cbn zeta. set (d' := {| rd_renderPass := rd_renderPass d |}). set (ev := TFramebuffer _ _ _ _ _ _).
  destruct (KD i Hi) as [Z|(info & A1 & A2 & A3 & A4 & A5 & A6 & A7 & A8)]; [fold d in Z; contradiction|]. fold d in A1, A2, A3, A4, A5, A6, A7, A8.
  constructor; cbn [tg_log tg_passes tg_size tg_layers].
  - intros j Hj. rewrite set_nth_length in Hj. unfold pass_data. cbn [tg_passes]. destruct (Nat.eq_dec i j) as [<-|Ne].
    + rewrite nth_set_nth by exact Hi. right. exists info. cbn [d' rd_renderPass rd_prev rd_next rd_entries rd_attachments rd_clear rd_area].
      split; [apply in_or_app; left; exact A1|]. auto 10.
    + rewrite nth_set_other by exact Ne. apply kept_data_more, (KD j Hj).
  - intros x Hx. apply in_app_or in Hx. destruct Hx as [Hx|[<-|[]]]; [apply event_ok_more, KL, Hx|]. cbn [ev event_ok]. exists i, info.
    split; [apply in_or_app; left; exact A1|]. split; [exact A3|]. split; [rewrite A6; reflexivity|]. split; [rewrite <- surjective_pairing; exact A8|].
    apply KY. exists i. auto.
  - intros j Hj. rewrite set_nth_length in Hj. unfold pass_data. cbn [tg_passes]. destruct (Nat.eq_dec i j) as [<-|Ne].
    + rewrite nth_set_nth by exact Hi. intros _. cbn [d' rd_framebuffer rd_renderPass rd_area]. do 4 eexists. split; [apply in_or_app; right; left; reflexivity|]. apply surjective_pairing.
    + rewrite nth_set_other by exact Ne. intros H. destruct (KF j Hj H) as (views & w & ht & layers & A & B). exists views, w, ht, layers. split; [apply in_or_app; left; exact A|exact B].
  - intros (j & Hj & H). rewrite set_nth_length in Hj. apply KY. unfold pass_data in H. cbn [tg_passes] in H. destruct (Nat.eq_dec i j) as [<-|Ne].
    + exists i. auto.
    + rewrite nth_set_other in H by exact Ne. exists j. auto.
  - exact KS.
Qed.
Lemma kept_emit images size t evs : kept images size t -> (forall x, In x evs -> event_ok images size (tg_log t) x) -> kept images size (tg_emit t evs).
Proof.
  intros [KD KL KF KY KS] H. constructor; cbn [tg_emit tg_log tg_passes tg_size tg_layers].
  - intros i Hi. apply kept_data_more, (KD i Hi).
  - intros x Hx. apply in_app_or in Hx. destruct Hx as [Hx|Hx]; apply event_ok_more; [apply KL, Hx|apply H, Hx].
  - intros i Hi Hd. destruct (KF i Hi Hd) as (views & w & ht & layers & A & B). exists views, w, ht, layers. split; [apply in_or_app; left; exact A|exact B].
  - exact KY.
  - exact KS.
Qed.
Lemma kept_use images size t u : kept images size t -> lives t -> rp_images (us_pass u) = images -> (rp_index (us_pass u) < length (tg_passes t))%nat -> kept images size (use_target t u).
Proof.
  intros K L Ei Hi. unfold use_target, tg_record. set (i := rp_index (us_pass u)) in *.
  destruct (lives_init (us_env u) (us_graph u) (us_pass u) i t (us_ctx u) L Hi) as (L1 & N1 & R1).
  destruct (kept_init images size (us_env u) (us_graph u) (us_pass u) i t (us_ctx u) K Ei Hi) as (K1 & _ & _).
  destruct (tg_initialise _ _ _ _ _ _) as [[t1 c1] m]. cbn [fst] in L1, N1, R1, K1.
  assert (Hi1 : (i < length (tg_passes t1))%nat) by (rewrite N1; exact Hi).
  destruct (lives_framebuffer i t1 L1 Hi1 R1) as (L2 & N2 & F2 & R2 & E2). pose proof (kept_framebuffer images size i t1 K1 Hi1 R1) as K2.
  unfold tg_begin. destruct (tg_framebuffer i t1) as [t2 fb]. cbn [fst snd] in *. cbv beta iota zeta. subst fb.
  assert (K3 : kept images size (tg_emit t2 [TBegin (rd_renderPass (pass_data t2 i)) (rd_framebuffer (pass_data t2 i)) (rd_area (pass_data t2 i)) (rd_clear (pass_data t2 i))])).
  { apply kept_emit; [exact K2|]. intros x [<-|[]]. cbn [event_ok]. destruct K2 as [KD KL KF KY KS].
    assert (Hi2 : (i < length (tg_passes t2))%nat) by congruence.
    split.
    - destruct (KF i Hi2 F2) as (views & w & ht & layers & A & B). exists views, w, ht, layers. auto.
    - destruct (KD i Hi2) as [Z|(info & _ & _ & _ & _ & _ & _ & Z & _)]; [congruence|exact Z]. }
  destruct (us_body u _ i) as [c2 l2]. unfold tg_end. cbn [fst]. apply kept_emit; [exact K3|]. intros x [<-|[]]. exact I.
Qed.
Lemma kept_used images size n l : (forall u, In u l -> rp_images (us_pass u) = images /\ (rp_index (us_pass u) < n)%nat) ->
  kept images size (used size n l) /\ lives (used size n l) /\ length (tg_passes (used size n l)) = n.
Proof.
  unfold used. assert (Len : length (tg_passes (new_target size n)) = n) by (cbn; apply repeat_length).
  pose proof (new_kept images size n) as K. pose proof (new_lives size n) as L. revert K L Len. generalize (new_target size n). 
  induction l as [|u l IH]; intros t K L Len H; [auto|]. cbn [fold_left].
  destruct (H u (or_introl eq_refl)) as [Ei Hi]. rewrite <- Len in Hi. destruct (lives_use t u L Hi) as [L1 N1].
  apply IH; [apply kept_use; assumption|exact L1|congruence|]. intros x Hx. apply H. right. exact Hx.
Qed.
