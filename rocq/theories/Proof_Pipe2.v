(* Lifetimes: from holders to passes and to whole histories. *)
From Verif Require Export Proof_Pipe.
From Coq Require Import Lia ZifyBool ZifyNat ZifyN Permutation PeanoNat.
Local Open Scope N_scope.

Definition dims (h : pholder) : nat * nat * nat := (ho_programs h, length (ho_pipelines h), length (ho_sets h)).
Definition shape (p : ppass) : Prop :=
  let '(n, l, m) := dims (pp_holder p) in
  l = n /\ (1 <= n)%nat /\ (n = 1 \/ m <= n)%nat /\ length (pp_initialised p) = m.
Definition comp (p : ppass) : Prop := pp_kind p = Compute ->
  let '(n, _, m) := dims (pp_holder p) in n = m /\ forall i, (i < m)%nat -> ho_pipeline (pp_holder p) i <> 0 -> nth i (pp_initialised p) false = true.

Lemma dims_create nf i d h : dims (snd (ho_create nf i d h)) = dims h.
Proof. unfold ho_create, fresh, dims; cbn. rewrite set_nth_length. reflexivity. Qed.
Lemma dims_reset i d h : dims (snd (ho_reset i d h)) = dims h.
Proof. unfold ho_reset. destruct (N.eqb _ 0); [reflexivity|]. unfold dims; cbn. rewrite set_nth_length. reflexivity. Qed.
Lemma dims_guarded nf i d h : dims (snd (guarded_create nf i d h)) = dims h.
Proof. unfold guarded_create. destruct (N.eqb _ 0); [apply dims_create|reflexivity]. Qed.
Lemma dims_initialise a b d h : dims (snd (ho_initialise a b d h)) = dims h.
Proof. unfold ho_initialise. destruct (N.eqb _ 0); reflexivity. Qed.
Lemma dims_cleanup d h : dims (snd (ho_cleanup d h)) = dims h.
Proof. unfold ho_cleanup, dims; cbn. rewrite !map_length. reflexivity. Qed.
Lemma dims_set a b i d h : dims (snd (ho_set a b i d h)) = dims h.
Proof. unfold ho_set. destruct (N.eqb _ 0); [|reflexivity]. unfold fresh, dims; cbn. rewrite set_nth_length. reflexivity. Qed.

(* The part of a pass that the holder operations do not change. *)
Definition still (p p' : ppass) : Prop :=
  pp_graph p' = pp_graph p /\ pp_kind p' = pp_kind p /\ pp_images p' = pp_images p /\ pp_buffers p' = pp_buffers p /\ dims (pp_holder p') = dims (pp_holder p).
Lemma still_refl p : still p p. Proof. repeat split. Qed.
Lemma still_trans p q r : still p q -> still q r -> still p r.
Proof. unfold still. intuition congruence. Qed.
Lemma still_on f x : (forall d h, dims (snd (f d h)) = dims h) -> still (snd x) (snd (on_holder f x)) /\
  pp_initialised (snd (on_holder f x)) = pp_initialised (snd x) /\ pp_prepared (snd (on_holder f x)) = pp_prepared (snd x) /\ pp_renderPass (snd (on_holder f x)) = pp_renderPass (snd x).
Proof.
  intro Hd. destruct x as [d p]. cbn. specialize (Hd d (pp_holder p)). destruct (f d (pp_holder p)) as [d' h']. cbn in *. unfold still. cbn. auto 10.
Qed.

(* One holder operation in a pass. *)
Definition PI (b : bool) (k : kind) (r : N -> nat) (x : driver * ppass) : Prop :=
  inv b k (fst x) (plus (own k (pp_holder (snd x))) r) /\ holder_ok (pp_holder (snd x)).
Lemma PI_on b k r f x :
  (let '(d', h') := f (fst x) (pp_holder (snd x)) in
   inv b k d' (plus (own k h') r) /\ holder_ok h') -> PI b k r (on_holder f x).
Proof. destruct x as [d p]. cbn. destruct (f d (pp_holder p)) as [d' h']. unfold PI. cbn. auto. Qed.

Lemma ok_same h h' : ho_layout h' = ho_layout h -> ho_pool h' = ho_pool h -> ho_setLayout h' = ho_setLayout h -> holder_ok h -> holder_ok h'.
Proof. unfold holder_ok. intros -> -> ->. auto. Qed.
Lemma PI_create b k r nf i x :
  (b = true -> k = KPipeline -> ho_pipeline (pp_holder (snd x)) i = 0 /\ (slot_of (pp_holder (snd x)) i < length (ho_pipelines (pp_holder (snd x))))%nat) ->
  PI b k r x -> PI b k r (on_holder (ho_create nf i) x).
Proof.
  intros Hb [H1 H2]. apply PI_on. pose proof (inv_create b k (fst x) (pp_holder (snd x)) r nf i Hb H1) as I.
  destruct (ho_create nf i (fst x) (pp_holder (snd x))) as [d' h'] eqn:E. split; [exact I|].
  revert H2. unfold ho_create, fresh in E. injection E as <- <-. apply ok_same; reflexivity.
Qed.
Lemma PI_guarded b k r nf i x :
  (b = true -> k = KPipeline -> (slot_of (pp_holder (snd x)) i < length (ho_pipelines (pp_holder (snd x))))%nat) ->
  PI b k r x -> PI b k r (on_holder (guarded_create nf i) x).
Proof.
  intros Hb H. destruct (N.eqb_spec (ho_pipeline (pp_holder (snd x)) i) 0) as [E|E].
  - replace (on_holder (guarded_create nf i) x) with (on_holder (ho_create nf i) x).
    + apply PI_create; [|exact H]. intros. split; [exact E|apply Hb; assumption].
    + destruct x as [d p]. cbn in *. unfold guarded_create. rewrite E. reflexivity.
  - replace (on_holder (guarded_create nf i) x) with x; [exact H|]. destruct x as [d p]. cbn in *. unfold guarded_create.
    destruct (N.eqb_spec (ho_pipeline (pp_holder p) i) 0); [contradiction|]. cbn. destruct p; reflexivity.
Qed.
Lemma PI_reset b k r i x : PI b k r x -> PI b k r (on_holder (ho_reset i) x).
Proof.
  intros [H1 H2]. apply PI_on. pose proof (inv_reset b k (fst x) (pp_holder (snd x)) r i H1) as I.
  destruct (ho_reset i (fst x) (pp_holder (snd x))) as [d' h'] eqn:E. split; [exact I|].
  revert H2. unfold ho_reset in E. destruct (N.eqb _ 0); injection E as <- <-; apply ok_same; reflexivity.
Qed.
Lemma PI_initialise b k r a c x : PI b k r x -> PI b k r (on_holder (ho_initialise a c) x).
Proof.
  intros [H1 H2]. apply PI_on. pose proof (inv_initialise b k a c (fst x) (pp_holder (snd x)) r H2 H1) as I.
  destruct (ho_initialise a c (fst x) (pp_holder (snd x))) as [d' h']. exact I.
Qed.
Lemma PI_set b k r a c i x : PI b k r x -> PI b k r (on_holder (ho_set a c i) x).
Proof.
  intros [H1 H2]. apply PI_on. pose proof (inv_set b k a c i (fst x) (pp_holder (snd x)) r H1) as I.
  destruct (ho_set a c i (fst x) (pp_holder (snd x))) as [d' h'] eqn:E. split; [exact I|].
  revert H2. unfold ho_set, fresh in E. destruct (N.eqb _ 0); injection E as <- <-; apply ok_same; reflexivity.
Qed.
Lemma PI_cleanup b k r x : PI b k r x -> PI b k r (on_holder ho_cleanup x).
Proof.
  intros [H1 H2]. apply PI_on. pose proof (inv_cleanup b k (fst x) (pp_holder (snd x)) r H1) as I.
  destruct (ho_cleanup (fst x) (pp_holder (snd x))) as [d' h'] eqn:E. split; [apply I|].
  unfold ho_cleanup in E. injection E as <- <-. intros _. split; reflexivity.
Qed.

Lemma slot_in p i : shape p -> (i < length (ho_sets (pp_holder p)))%nat -> (slot_of (pp_holder p) i < length (ho_pipelines (pp_holder p)))%nat.
Proof. unfold shape, dims, slot_of. intros (H1 & H2 & H3 & H4) Hi. destruct (Nat.eqb_spec (ho_programs (pp_holder p)) 1); lia. Qed.
Lemma slot_still p p' i : still p p' -> (slot_of (pp_holder p) i < length (ho_pipelines (pp_holder p)))%nat ->
  (slot_of (pp_holder p') i < length (ho_pipelines (pp_holder p')))%nat.
Proof. unfold still, dims, slot_of. intros (_ & _ & _ & _ & E). injection E as E1 E2 E3. rewrite E1, E2. auto. Qed.

Lemma with_rp_on b k r d p rp : PI b k r (d, p) -> PI b k r (d, with_renderPass p rp).
Proof. unfold PI. cbn. auto. Qed.
Lemma still_rp p rp : still p (with_renderPass p rp). Proof. repeat split. Qed.
Lemma still_code p i c : still p (with_code p i c) /\ pp_initialised (with_code p i c) = pp_initialised p /\ pp_renderPass (with_code p i c) = pp_renderPass p /\ pp_holder (with_code p i c) = pp_holder p.
Proof. destruct c; repeat split. Qed.

Ltac still1 f L := match goal with |- context [on_holder f ?x] => pose proof (still_on f x L) as (?St & ?Si & ?Sp & ?Sr) end.

Lemma resetRP b k r rp i x :
  (b = true -> k = KPipeline -> (slot_of (pp_holder (snd x)) i < length (ho_pipelines (pp_holder (snd x))))%nat) ->
  PI b k r x -> PI b k r (resetRenderPass rp i x) /\ still (snd x) (snd (resetRenderPass rp i x)) /\
  pp_initialised (snd (resetRenderPass rp i x)) = pp_initialised (snd x).
Proof.
  intros Hb H. unfold resetRenderPass, doCreatePipeline.
  pose proof (PI_reset b k r i x H) as H1. pose proof (still_on (ho_reset i) x (dims_reset i)) as (S1 & S2 & _).
  destruct (on_holder (ho_reset i) x) as [d p] eqn:E. cbn [snd] in *.
  pose proof (still_on (guarded_create (pipeline_info (snd (d, with_renderPass p rp)) i) i) (d, with_renderPass p rp) (dims_guarded _ i)) as (S3 & S4 & _). cbn [snd] in *.
  assert (St : still (snd x) (with_renderPass p rp)) by (eapply still_trans; [exact S1|apply still_rp]).
  split; [|split; [eapply still_trans; [exact St|exact S3]|rewrite S4; exact S2]].
  apply PI_guarded; [|apply with_rp_on; exact H1]. intros Eb Ek. cbn [snd]. apply (slot_still _ _ i St). apply Hb; assumption.
Qed.

Lemma quad_init b k r rp i x :
  (b = true -> k = KPipeline -> (slot_of (pp_holder (snd x)) i < length (ho_pipelines (pp_holder (snd x))))%nat) ->
  PI b k r x -> PI b k r (quad_initialise rp i x) /\ still (snd x) (snd (quad_initialise rp i x)) /\
  pp_initialised (snd (quad_initialise rp i x)) = pp_initialised (snd x).
Proof.
  intros Hb H. destruct x as [d p]. cbn [snd] in *. unfold quad_initialise, doCreatePipeline.
  set (y := if negb (pp_prepared p) then _ else _).
  assert (Hy : PI b k r y /\ still p (snd y) /\ pp_initialised (snd y) = pp_initialised p).
  { subst y. destruct (negb (pp_prepared p)).
    - pose proof (PI_initialise b k r (pp_images p) (pp_buffers p) (d, p) H) as H1.
      pose proof (still_on (ho_initialise (pp_images p) (pp_buffers p)) (d, p) (dims_initialise _ _)) as (S1 & S2 & _).
      destruct (on_holder (ho_initialise (pp_images p) (pp_buffers p)) (d, p)) as [d1 p1]. cbn [snd] in *.
      split; [apply with_rp_on; exact H1|]. split; [eapply still_trans; [exact S1|apply still_rp]|exact S2].
    - destruct (negb (N.eqb (pp_renderPass p) rp)).
      + apply (resetRP b k r rp i (d, p)); [exact Hb|exact H].
      + split; [exact H|]. split; [apply still_refl|reflexivity]. }
  destruct Hy as (Y1 & Y2 & Y3).
  pose proof (still_on (guarded_create (pipeline_info (snd y) i) i) y (dims_guarded _ i)) as (S3 & S4 & _).
  split; [|split; [eapply still_trans; [exact Y2|exact S3]|rewrite S4; exact Y3]].
  apply PI_guarded; [|exact Y1]. intros Eb Ek. apply (slot_still _ _ i Y2). apply Hb; assumption.
Qed.

Lemma mesh_init b k r rp i x :
  (b = true -> k = KPipeline -> (slot_of (pp_holder (snd x)) i < length (ho_pipelines (pp_holder (snd x))))%nat) ->
  PI b k r x -> PI b k r (mesh_initialise rp i x) /\ still (snd x) (snd (mesh_initialise rp i x)) /\
  pp_initialised (snd (mesh_initialise rp i x)) = pp_initialised (snd x).
Proof.
  intros Hb H. unfold mesh_initialise, doCreatePipeline.
  pose proof (PI_cleanup b k r x H) as H1. pose proof (still_on ho_cleanup x dims_cleanup) as (S1 & S2 & _).
  destruct (on_holder ho_cleanup x) as [d1 p1]. cbn [snd] in *.
  pose proof (PI_initialise b k r (pp_images p1) (pp_buffers p1) (d1, p1) H1) as H2.
  pose proof (still_on (ho_initialise (pp_images p1) (pp_buffers p1)) (d1, p1) (dims_initialise _ _)) as (S3 & S4 & _).
  destruct (on_holder (ho_initialise (pp_images p1) (pp_buffers p1)) (d1, p1)) as [d2 p2]. cbn [snd] in *.
  assert (S5 : still (snd x) p2) by (eapply still_trans; eassumption).
  assert (Hb2 : b = true -> k = KPipeline -> (slot_of (pp_holder p2) i < length (ho_pipelines (pp_holder p2)))%nat).
  { intros. apply (slot_still _ _ i S5). apply Hb; assumption. }
  set (y := if N.eqb (pp_renderPass p2) 0 then _ else _).
  assert (Hy : PI b k r y /\ still p2 (snd y) /\ pp_initialised (snd y) = pp_initialised p2).
  { subst y. destruct (N.eqb (pp_renderPass p2) 0).
    - split; [apply with_rp_on; exact H2|]. split; [apply still_rp|reflexivity].
    - destruct (negb (N.eqb (pp_renderPass p2) rp)).
      + apply (resetRP b k r rp i (d2, p2)); [exact Hb2|exact H2].
      + split; [exact H2|]. split; [apply still_refl|reflexivity]. }
  destruct Hy as (Y1 & Y2 & Y3).
  pose proof (still_on (guarded_create (pipeline_info (snd y) i) i) y (dims_guarded _ i)) as (S6 & S7 & _).
  split; [|split; [eapply still_trans; [exact S5|eapply still_trans; [exact Y2|exact S6]]|rewrite S7, Y3, S4; exact S2]].
  apply PI_guarded; [|exact Y1]. intros Eb Ek. apply (slot_still _ _ i Y2). apply Hb2; assumption.
Qed.

(* Recording a pass. *)
Definition strict (b : bool) (k : kind) (p : ppass) : Prop := b = true -> k = KPipeline -> shape p /\ comp p.

Lemma comp_not p : pp_kind p <> Compute -> comp p. Proof. intros H E. contradiction. Qed.
Lemma shape_still p p' : still p p' -> length (pp_initialised p') = length (pp_initialised p) -> shape p -> shape p'.
Proof. unfold still, shape. intros (_ & _ & _ & _ & ->) ->. auto. Qed.

Lemma record_PI b k r i rp d p :
  strict b k p -> (b = true -> k = KPipeline -> (i < length (ho_sets (pp_holder p)))%nat) ->
  PI b k r (d, p) ->
  let '(d', p', _) := pass_record i rp d p in PI b k r (d', p') /\ still p p' /\ strict b k p'.
Proof.
  intros Hs Hi H. unfold pass_record, doCreatePipeline, compute_create.
  assert (Hb : b = true -> k = KPipeline -> (slot_of (pp_holder p) i < length (ho_pipelines (pp_holder p)))%nat).
  { intros E1 E2. apply slot_in; [apply (Hs E1 E2)|apply (Hi E1 E2)]. }
  set (y := match pp_kind p with Compute => _ | Quad => _ | Mesh => _ end).
  assert (Hy : PI b k r y /\ still p (snd y) /\ strict b k (snd y)).
  { subst y. destruct (pp_kind p) eqn:Ek.
    - destruct (nth i (pp_initialised p) false) eqn:Ei; [split; [exact H|]; split; [apply still_refl|exact Hs]|].
      pose proof (PI_initialise b k r (pp_images p) (pp_buffers p) (d, p) H) as H1.
      pose proof (still_on (ho_initialise (pp_images p) (pp_buffers p)) (d, p) (dims_initialise _ _)) as (S1 & S2 & _).
      assert (Q : ho_pipeline (pp_holder (snd (on_holder (ho_initialise (pp_images p) (pp_buffers p)) (d, p)))) i = ho_pipeline (pp_holder p) i
               /\ ho_pipelines (pp_holder (snd (on_holder (ho_initialise (pp_images p) (pp_buffers p)) (d, p)))) = ho_pipelines (pp_holder p)).
      { cbn. unfold ho_initialise. destruct (N.eqb (ho_layout (pp_holder p)) 0); cbn; split; reflexivity. }
      destruct (on_holder (ho_initialise (pp_images p) (pp_buffers p)) (d, p)) as [d1 p1]. cbn [snd] in *. destruct Q as [Q1 Q2].
      assert (H2 : PI b k r (on_holder (ho_create (pipeline_info p1 i) i) (d1, p1))).
      { apply PI_create; [|exact H1]. cbn [snd]. intros E1 E2. split; [|apply (slot_still _ _ i S1); apply Hb; assumption].
        rewrite Q1. destruct (Hs E1 E2) as [_ C]. specialize (C Ek). unfold dims in C. destruct C as [_ C].
        destruct (N.eq_dec (ho_pipeline (pp_holder p) i) 0) as [Z|Z]; [exact Z|]. specialize (C i (Hi E1 E2) Z). congruence. }
      pose proof (still_on (ho_create (pipeline_info p1 i) i) (d1, p1) (dims_create _ i)) as (S3 & S4 & _).
      assert (Q3 : ho_pipelines (pp_holder (snd (on_holder (ho_create (pipeline_info p1 i) i) (d1, p1)))) = set_nth (slot_of (pp_holder p1) i) (dr_next d1) (ho_pipelines (pp_holder p1))) by reflexivity.
      destruct (on_holder (ho_create (pipeline_info p1 i) i) (d1, p1)) as [d2 p2]. cbn [snd] in *.
      assert (S5 : still p p2) by (eapply still_trans; eassumption).
      split; [unfold PI in *; cbn; exact H2|]. split; [exact S5|]. intros E1 E2. destruct (Hs E1 E2) as [Sh C].
      assert (Sh2 : shape (with_initialised p2 i)).
      { apply (shape_still p); [exact S5| |exact Sh]. cbn. rewrite set_nth_length. congruence. }
      split; [exact Sh2|]. intros Ec. specialize (C Ek). unfold dims in *. cbn [with_initialised pp_holder pp_initialised].
      destruct C as [C1 C2]. destruct S5 as (_ & _ & _ & _ & S5). unfold dims in S5. injection S5 as T1 T2 T3.
      split; [congruence|]. intros j Hj. unfold ho_pipeline at 1. rewrite Q3, Q2. rewrite !nth_set_nth. unfold slot_of.
      destruct S1 as (_ & _ & _ & _ & S1). unfold dims in S1. injection S1 as U1 U2 U3. rewrite U1, T1, S4, S2.
      unfold shape, dims in Sh. destruct Sh as (V1 & V2 & V3 & V4).
      intro Hn. destruct (Nat.eqb_spec i j) as [->|Ne].
      + cbn [andb]. rewrite V4. destruct (Nat.ltb_spec j (length (ho_sets (pp_holder p)))); [reflexivity|]. exfalso. lia.
      + cbn [andb]. apply C2; [lia|]. unfold ho_pipeline, slot_of. destruct (Nat.eqb_spec (ho_programs (pp_holder p)) 1) as [E3|E3].
        * exfalso. specialize (Hi E1 E2). lia.
        * destruct (Nat.eqb_spec i j); [contradiction|]. cbn [andb] in Hn. exact Hn.
    - assert (Hz : exists z, match rp with Some rp => quad_initialise rp i (d, p) | None => (d, p) end = z /\ PI b k r z /\ still p (snd z) /\ pp_initialised (snd z) = pp_initialised p).
      { eexists. split; [reflexivity|]. destruct rp as [n|].
        - apply (quad_init b k r n i (d, p)); [exact Hb|exact H].
        - split; [exact H|]. split; [apply still_refl|reflexivity]. }
      destruct Hz as (z & -> & Z1 & Z2 & Z3). pose proof (still_on (guarded_create (pipeline_info (snd z) i) i) z (dims_guarded _ i)) as (S1 & S2 & _).
      assert (S3 : still p (snd (on_holder (guarded_create (pipeline_info (snd z) i) i) z))) by (eapply still_trans; eassumption).
      split; [apply PI_guarded; [|exact Z1]; intros E1 E2; apply (slot_still _ _ i Z2), Hb; assumption|]. split; [exact S3|].
      intros E1 E2. split; [apply (shape_still p); [exact S3|congruence|apply (Hs E1 E2)]|].
      apply comp_not. destruct S3 as (_ & Sk & _). rewrite Sk, Ek. discriminate.
    - assert (Hz : exists z, match rp with Some rp => mesh_initialise rp i (d, p) | None => (d, p) end = z /\ PI b k r z /\ still p (snd z) /\ pp_initialised (snd z) = pp_initialised p).
      { eexists. split; [reflexivity|]. destruct rp as [n|].
        - apply (mesh_init b k r n i (d, p)); [exact Hb|exact H].
        - split; [exact H|]. split; [apply still_refl|reflexivity]. }
      destruct Hz as (z & -> & Z1 & Z2 & Z3). pose proof (still_on (guarded_create (pipeline_info (snd z) i) i) z (dims_guarded _ i)) as (S1 & S2 & _).
      assert (S3 : still p (snd (on_holder (guarded_create (pipeline_info (snd z) i) i) z))) by (eapply still_trans; eassumption).
      split; [apply PI_guarded; [|exact Z1]; intros E1 E2; apply (slot_still _ _ i Z2), Hb; assumption|]. split; [exact S3|].
      intros E1 E2. split; [apply (shape_still p); [exact S3|congruence|apply (Hs E1 E2)]|].
      apply comp_not. destruct S3 as (_ & Sk & _). rewrite Sk, Ek. discriminate. }
  destruct Hy as (Y1 & Y2 & Y3). destruct y as [d1 p1]. cbn [snd] in *.
  pose proof (PI_set b k r (pp_images p) (pp_buffers p) i (d1, p1) Y1) as H3.
  pose proof (still_on (ho_set (pp_images p) (pp_buffers p) i) (d1, p1) (dims_set _ _ i)) as (S1 & S2 & _).
  assert (Q : ho_pipelines (pp_holder (snd (on_holder (ho_set (pp_images p) (pp_buffers p) i) (d1, p1)))) = ho_pipelines (pp_holder p1)).
  { cbn. unfold ho_set. destruct (N.eqb _ 0); reflexivity. }
  unfold on_holder in *. destruct (ho_set (pp_images p) (pp_buffers p) i d1 (pp_holder p1)) as [d2 h2]. cbn [snd] in *.
  split; [exact H3|]. split; [eapply still_trans; eassumption|].
  intros E1 E2. destruct (Y3 E1 E2) as [Sh C]. split; [apply (shape_still p1); [exact S1|congruence|exact Sh]|].
  intro Ec. destruct S1 as (_ & Sk & _ & _ & Sd). specialize (C (eq_trans (eq_sym Sk) Ec)). unfold dims in *. injection Sd as T1 T2 T3.
  cbn [with_holder pp_holder pp_initialised] in *. destruct C as [C1 C2]. split; [congruence|].
  intros j Hj Hn. apply C2; [lia|]. unfold ho_pipeline, slot_of in *. rewrite <- T1, <- Q. exact Hn.
Qed.

Lemma reset_PI b k r i c d p :
  strict b k p -> (b = true -> k = KPipeline -> (i < length (ho_sets (pp_holder p)))%nat /\ (pp_kind p = Compute -> nth i (pp_initialised p) false = true)) ->
  PI b k r (d, p) ->
  let '(d', p') := pass_reset i c d p in PI b k r (d', p') /\ still p p' /\ strict b k p'.
Proof.
  intros Hs Hi H. unfold pass_reset, doCreatePipeline, compute_create.
  assert (Hb : b = true -> k = KPipeline -> (slot_of (pp_holder p) i < length (ho_pipelines (pp_holder p)))%nat).
  { intros E1 E2. apply slot_in; [apply (Hs E1 E2)|apply (Hi E1 E2)]. }
  pose proof (PI_reset b k r i (d, p) H) as H1.
  pose proof (still_on (ho_reset i) (d, p) (dims_reset i)) as (S1 & S2 & _).
  assert (Q : ho_pipelines (pp_holder (snd (on_holder (ho_reset i) (d, p)))) = set_nth (slot_of (pp_holder p) i) 0 (ho_pipelines (pp_holder p))).
  { cbn. unfold ho_reset. destruct (N.eqb_spec (ho_pipeline (pp_holder p) i) 0) as [E|E]; [|reflexivity]. cbn. unfold ho_pipeline in E.
    revert E. generalize (slot_of (pp_holder p) i). clear. induction (ho_pipelines (pp_holder p)) as [|x l IH]; intros [|n] E; cbn in *; try reflexivity; [subst; reflexivity|]. f_equal. apply IH, E. }
  destruct (on_holder (ho_reset i) (d, p)) as [d1 p0] eqn:E. cbn [snd] in *.
  destruct (still_code p0 i c) as (C1 & C2 & C3 & C4). set (p1 := with_code p0 i c) in *.
  assert (Ek0 : pp_kind p0 = pp_kind p) by apply S1. rewrite Ek0. clear Ek0.
  assert (Hr : pp_renderPass p0 = pp_renderPass p). { pose proof (still_on (ho_reset i) (d, p) (dims_reset i)) as (_ & _ & _ & X). rewrite E in X. exact X. }
  rewrite Hr. clear Hr E.
  assert (H1' : PI b k r (d1, p1)) by (unfold PI in *; cbn [fst snd] in *; rewrite C4; exact H1).
  clear H1. rename H1' into H1. rewrite <- C4 in Q. rewrite <- C2 in S2. apply (fun a => still_trans _ _ _ a C1) in S1. clearbody p1. clear C1 C2 C3 C4. cbn [snd].
  assert (Hb1 : b = true -> k = KPipeline -> (slot_of (pp_holder p1) i < length (ho_pipelines (pp_holder p1)))%nat) by (intros; apply (slot_still _ _ i S1), Hb; assumption).
  destruct (pp_kind p) eqn:Ek.
  - assert (H2 : PI b k r (on_holder (ho_create (pipeline_info p1 i) i) (d1, p1))).
    { apply PI_create; [|exact H1]. cbn [snd]. intros E1 E2. split; [|apply Hb1; assumption].
      specialize (Hb E1 E2). destruct S1 as (_ & _ & _ & _ & Sd). unfold dims in Sd. injection Sd as T1 T2 T3.
      unfold ho_pipeline. rewrite Q, nth_set_nth. unfold slot_of in *. rewrite T1. rewrite Nat.eqb_refl. cbn [andb].
      apply Nat.ltb_lt in Hb. rewrite Hb. reflexivity. }
    pose proof (still_on (ho_create (pipeline_info p1 i) i) (d1, p1) (dims_create _ i)) as (S3 & S4 & _).
    assert (Q3 : ho_pipelines (pp_holder (snd (on_holder (ho_create (pipeline_info p1 i) i) (d1, p1)))) = set_nth (slot_of (pp_holder p1) i) (dr_next d1) (ho_pipelines (pp_holder p1))) by reflexivity.
    destruct (on_holder (ho_create (pipeline_info p1 i) i) (d1, p1)) as [d2 p2]. cbn [snd] in *.
    assert (S5 : still p p2) by (eapply still_trans; eassumption).
    split; [exact H2|]. split; [exact S5|]. intros E1 E2. destruct (Hs E1 E2) as [Sh C]. destruct (Hi E1 E2) as [Hi1 Hi2].
    split; [apply (shape_still p); [exact S5|congruence|exact Sh]|].
    intro Ec. specialize (C Ek). specialize (Hi2 eq_refl). destruct S5 as (_ & _ & _ & _ & S5). unfold dims in *. injection S5 as T1 T2 T3.
    destruct C as [C1 C2]. split; [congruence|]. intros j Hj. destruct S1 as (_ & _ & _ & _ & S1). unfold dims in S1. injection S1 as U1 U2 U3.
    unfold ho_pipeline, slot_of. rewrite Q3, Q, !nth_set_nth, T1, S4, S2. unfold slot_of. rewrite U1.
    destruct (Nat.eq_dec i j) as [->|Ne]; [intros _; exact Hi2|]. intro Hn. apply C2; [lia|]. unfold ho_pipeline, slot_of.
    unfold shape, dims in Sh. destruct Sh as (V1 & V2 & V3 & V4).
    destruct (Nat.eqb_spec (ho_programs (pp_holder p)) 1) as [E3|E3]; [exfalso; lia|].
    destruct (Nat.eqb_spec i j); [contradiction|]. cbn [andb] in Hn. exact Hn.
  - pose proof (still_on (guarded_create (pipeline_info p1 i) i) (d1, p1) (dims_guarded _ i)) as (S3 & S4 & _). cbn [snd] in *.
    destruct (N.eqb (pp_renderPass p) 0).
    + split; [exact H1|]. split; [exact S1|]. intros E1 E2. split; [apply (shape_still p); [exact S1|congruence|apply (Hs E1 E2)]|].
      apply comp_not. destruct S1 as (_ & Sk & _). rewrite Sk, Ek. discriminate.
    + assert (S5 : still p (snd (on_holder (guarded_create (pipeline_info p1 i) i) (d1, p1)))) by (eapply still_trans; eassumption).
      pose proof (PI_guarded b k r (pipeline_info p1 i) i (d1, p1) Hb1 H1) as H2. destruct (on_holder (guarded_create (pipeline_info p1 i) i) (d1, p1)) as [d2 p2]. cbn [snd] in *.
      split; [exact H2|]. split; [exact S5|]. intros E1 E2. split; [apply (shape_still p); [exact S5|congruence|apply (Hs E1 E2)]|].
      apply comp_not. destruct S5 as (_ & Sk & _). rewrite Sk, Ek. discriminate.
  - pose proof (still_on (guarded_create (pipeline_info p1 i) i) (d1, p1) (dims_guarded _ i)) as (S3 & S4 & _). cbn [snd] in *.
    destruct (N.eqb (pp_renderPass p) 0).
    + split; [exact H1|]. split; [exact S1|]. intros E1 E2. split; [apply (shape_still p); [exact S1|congruence|apply (Hs E1 E2)]|].
      apply comp_not. destruct S1 as (_ & Sk & _). rewrite Sk, Ek. discriminate.
    + assert (S5 : still p (snd (on_holder (guarded_create (pipeline_info p1 i) i) (d1, p1)))) by (eapply still_trans; eassumption).
      pose proof (PI_guarded b k r (pipeline_info p1 i) i (d1, p1) Hb1 H1) as H2. destruct (on_holder (guarded_create (pipeline_info p1 i) i) (d1, p1)) as [d2 p2]. cbn [snd] in *.
      split; [exact H2|]. split; [exact S5|]. intros E1 E2. split; [apply (shape_still p); [exact S5|congruence|apply (Hs E1 E2)]|].
      apply comp_not. destruct S5 as (_ & Sk & _). rewrite Sk, Ek. discriminate.
Qed.
