(* The pipelines created by the recording that binds them. *)
From Verif Require Export Proof_Pipe10.
From Coq Require Import Lia ZifyBool ZifyNat ZifyN PeanoNat.
Local Open Scope N_scope.

(* the pipeline of the index, if there is one, is younger than n and was created for the render pass r *)
Definition tracked (n : N) (x : driver * ppass) : Prop := n <= dr_next (fst x) /\ forall h y, made_as (dr_log (fst x)) h = Some y -> h < dr_next (fst x).
Definition young (n r : N) (i : nat) (x : driver * ppass) : Prop :=
  tracked n x /\ (ho_pipeline (pp_holder (snd x)) i = 0 \/
    n <= ho_pipeline (pp_holder (snd x)) i /\ exists program l, made_as (dr_log (fst x)) (ho_pipeline (pp_holder (snd x)) i) = Some (program, r, l)).
Lemma young_create n i x : pp_kind (snd x) <> Compute -> young n (pp_renderPass (snd x)) i x -> young n (pp_renderPass (snd x)) i (doCreatePipeline i x).
Proof.
  destruct x as [d p]. intros K [[A A2] B]. unfold doCreatePipeline, on_holder, guarded_create. cbn [fst snd] in *.
  destruct (N.eqb_spec (ho_pipeline (pp_holder p) i) 0) as [E|E].
  2:{ split; [split; assumption|exact B]. }
  unfold ho_create, fresh. unfold young, tracked. cbn [fst snd with_holder pp_holder dr_next dr_log pp_renderPass].
  assert (M : made_as (dr_log d) (dr_next d) = None) by (destruct (made_as (dr_log d) (dr_next d)) as [y|] eqn:Ey; [specialize (A2 _ _ Ey); lia|reflexivity]).
  split; [split; [lia|]|].
  - intros h y. rewrite made_as_app. destruct (made_as (dr_log d) h) as [z|] eqn:Ez; [specialize (A2 _ _ Ez); lia|]. cbn [made_as]. destruct (N.eqb_spec h (dr_next d)) as [Eh|Eh]; [lia|discriminate].
  - unfold ho_pipeline. change (slot_of (with_pipelines (pp_holder p) (set_nth (slot_of (pp_holder p) i) (dr_next d) (ho_pipelines (pp_holder p)))) i) with (slot_of (pp_holder p) i).
    cbn [with_pipelines ho_pipelines]. rewrite nth_set_nth, Nat.eqb_refl. cbn [andb]. destruct (Nat.ltb _ _); [right; split; [exact A|]|left; exact E].
    eexists _, _. rewrite made_as_app, M. cbn [made_as]. rewrite N.eqb_refl. unfold pipeline_info. cbn [fst snd]. destruct (pp_kind p); [contradiction|reflexivity|reflexivity].
Qed.
Lemma young_create' n r i x : pp_kind (snd x) <> Compute -> pp_renderPass (snd x) = r -> young n r i x -> young n r i (doCreatePipeline i x).
Proof. intros K <-. apply young_create, K. Qed.
Lemma young_reset n i x rp : pp_kind (snd x) <> Compute -> tracked n x -> young n rp i (resetRenderPass rp i x).
Proof.
  destruct x as [d p]. cbn [fst snd]. intros K A. unfold resetRenderPass, on_holder, ho_reset.
  destruct (N.eqb_spec (ho_pipeline (pp_holder p) i) 0) as [E|E]; (apply young_create'; [exact K|reflexivity|]); (split; cbn [fst snd with_renderPass with_holder pp_holder]; [exact A|left]).
  - exact E.
  - unfold ho_pipeline. change (slot_of (with_pipelines (pp_holder p) (set_nth (slot_of (pp_holder p) i) 0 (ho_pipelines (pp_holder p)))) i) with (slot_of (pp_holder p) i).
    cbn [with_pipelines ho_pipelines]. rewrite nth_set_nth, Nat.eqb_refl. cbn [andb]. destruct (Nat.ltb_spec (slot_of (pp_holder p) i) (length (ho_pipelines (pp_holder p)))) as [X|X]; [reflexivity|].
    apply nth_overflow, X.
Qed.
Lemma tracked_more n d d' p p' es : tracked n (d, p) -> dr_log d' = dr_log d ++ es -> no_made es = true -> dr_next d <= dr_next d' -> tracked n (d', p').
Proof.
  intros [A B] E1 E2 E3. cbn [fst] in *. split; cbn [fst]; [lia|]. intros h y. rewrite E1, made_as_app, (no_made_none es h E2).
  destruct (made_as (dr_log d) h) as [z|] eqn:Ez; [intros _; specialize (B _ _ Ez); lia|discriminate].
Qed.
Lemma empty_init n i a b x : tracked n x -> ho_pipeline (pp_holder (snd x)) i = 0 ->
  tracked n (on_holder (ho_initialise a b) x) /\ ho_pipeline (pp_holder (snd (on_holder (ho_initialise a b) x))) i = 0.
Proof.
  destruct x as [d p]. intros A B. cbn [snd] in B. unfold on_holder, ho_initialise. destruct (N.eqb _ 0); [|split; assumption].
  unfold fresh. cbn [fst snd with_holder pp_holder dr_next dr_log dr_queue]. rewrite <- !app_assoc. split; [|exact B].
  eapply (tracked_more n d _ p); [exact A|reflexivity|reflexivity|cbn; lia].
Qed.
Lemma quad_young rp i d p : pp_kind p <> Compute -> GV d -> (pp_prepared p = false -> ho_pipeline (pp_holder p) i = 0) -> (pp_prepared p = true -> pp_renderPass p <> rp) ->
  young (dr_next d) rp i (quad_initialise rp i (d, p)).
Proof.
  intros K [_ V] Z H. assert (T : tracked (dr_next d) (d, p)) by (split; [cbn; lia|exact V]). unfold quad_initialise. destruct (pp_prepared p); cbn [negb].
  - destruct (N.eqb_spec (pp_renderPass p) rp) as [E|E]; [contradiction (H eq_refl)|]. cbn [negb].
    pose proof (docreate_frame i (d, p)) as _. apply young_create'.
    + unfold resetRenderPass. destruct (frame_on (ho_reset i) (d, p) (dims_reset i)) as (F & _). destruct (on_holder (ho_reset i) (d, p)) as [d1 p1].
      destruct (docreate_frame i (d1, with_renderPass p1 rp)) as (F2 & _). pose proof (frame_trans _ _ _ F (frame_rp p1 rp)) as F3. pose proof (frame_trans _ _ _ F3 F2) as ((_ & X & _) & _). cbn [snd] in X. congruence.
    + unfold resetRenderPass. destruct (on_holder (ho_reset i) (d, p)) as [d1 p1]. destruct (docreate_frame i (d1, with_renderPass p1 rp)) as (_ & _ & X & _). exact X.
    + apply young_reset; assumption.
  - destruct (empty_init (dr_next d) i (pp_images p) (pp_buffers p) (d, p) T (Z eq_refl)) as [Y1 Y2].
    destruct (frame_on (ho_initialise (pp_images p) (pp_buffers p)) (d, p) (dims_initialise _ _)) as (((_ & X & _) & _) & _).
    destruct (on_holder (ho_initialise (pp_images p) (pp_buffers p)) (d, p)) as [d1 p1]. cbn [snd] in *. apply young_create'; [cbn; congruence|reflexivity|]. split; [exact Y1|left; exact Y2].
Qed.
Lemma mesh_young rp i d p : pp_kind p <> Compute -> GV d -> young (dr_next d) rp i (mesh_initialise rp i (d, p)).
Proof.
  intros K [_ V]. assert (T : tracked (dr_next d) (d, p)) by (split; [cbn; lia|exact V]). unfold mesh_initialise.
  assert (Y0 : tracked (dr_next d) (on_holder ho_cleanup (d, p)) /\ ho_pipeline (pp_holder (snd (on_holder ho_cleanup (d, p)))) i = 0).
  { unfold on_holder, ho_cleanup. cbn [snd with_holder pp_holder]. split.
    - eapply (tracked_more (dr_next d) d _ p); [exact T|reflexivity| |cbn; lia].
      assert (Kd : forall k l, no_made (flat_map (destroy_event k) l) = true).
      { intros k l. induction l as [|x l IH]; [reflexivity|]. cbn [flat_map]. unfold no_made in *. rewrite forallb_app, IH. unfold destroy_event. destruct (N.eqb x 0); reflexivity. }
      rewrite !(destroy_one KPool), !(destroy_one KLayout), !(destroy_one KSetLayout). unfold no_made in *. rewrite !forallb_app, !Kd. reflexivity.
    - unfold ho_pipeline. cbn [ho_pipelines]. match goal with |- nth ?j _ _ = 0 => generalize j end. induction (ho_pipelines (pp_holder p)) as [|x l IH]; intros [|j]; cbn; auto. }
  destruct Y0 as [Y0 Z0]. destruct (frame_on ho_cleanup (d, p) dims_cleanup) as (F0 & _). destruct (on_holder ho_cleanup (d, p)) as [d0 p0].
  destruct (empty_init (dr_next d) i (pp_images p0) (pp_buffers p0) (d0, p0) Y0 Z0) as [Y1 Z1].
  destruct (frame_on (ho_initialise (pp_images p0) (pp_buffers p0)) (d0, p0) (dims_initialise _ _)) as (F1 & _).
  destruct (on_holder (ho_initialise (pp_images p0) (pp_buffers p0)) (d0, p0)) as [d1 p1]. cbn [snd] in *.
  pose proof (frame_trans _ _ _ F0 F1) as ((_ & Kp & _) & _).
  destruct (N.eqb (pp_renderPass p1) 0); [apply young_create'; [cbn; congruence|reflexivity|split; [exact Y1|left; exact Z1]]|].
  destruct (N.eqb_spec (pp_renderPass p1) rp) as [E|E]; cbn [negb].
  - apply young_create'; [cbn; congruence|exact E|]. split; [exact Y1|left; exact Z1].
  - apply young_create'.
    + unfold resetRenderPass. destruct (frame_on (ho_reset i) (d1, p1) (dims_reset i)) as (F & _). destruct (on_holder (ho_reset i) (d1, p1)) as [d2 p2].
      destruct (docreate_frame i (d2, with_renderPass p2 rp)) as (F2 & _). pose proof (frame_trans _ _ _ F (frame_rp p2 rp)) as F3. pose proof (frame_trans _ _ _ F3 F2) as ((_ & X & _) & _). cbn [snd] in X. congruence.
    + unfold resetRenderPass. destruct (on_holder (ho_reset i) (d1, p1)) as [d2 p2]. destruct (docreate_frame i (d2, with_renderPass p2 rp)) as (_ & _ & X & _). exact X.
    + apply young_reset; [cbn; congruence|exact Y1].
Qed.
(* the recording that makes another render pass creates the pipeline it binds, for this render pass *)
Lemma record_young i r d p : pass_good d p -> (i < length (ho_sets (pp_holder p)))%nat -> pp_kind p <> Compute -> r <> 0 ->
  (pp_kind p = Quad -> pp_prepared p = true -> pp_renderPass p <> r) ->
  let '(d', _, h) := pass_record i (Some r) d p in h = 0 \/ dr_next d <= h /\ exists program l, made_as (dr_log d') h = Some (program, r, l).
Proof.
  intros (G & F & _) Hi K Hr Hq. destruct (F K) as [F1 _]. pose proof (g_v _ G) as V. cbn [fst] in V.
  assert (Y : young (dr_next d) r i (pre_record i (Some r) d p)).
  { pose proof (quad_ready r i d p G F K Hr Hi) as R1. pose proof (mesh_ready r i d p G F K Hr Hi) as R2.
    unfold pre_record. destruct (pp_kind p) eqn:Ek; [contradiction| |].
    - destruct R1 as (_ & ((_ & R1 & _) & _) & _ & R2' & _). apply young_create'; [congruence|exact R2'|]. apply quad_young; [congruence|exact V| |].
      + intro E. apply (proj2 (F1 E)), Hi.
      + apply Hq; auto.
    - destruct R2 as (_ & ((_ & R2 & _) & _) & _ & R2' & _). apply young_create'; [congruence|exact R2'|]. apply mesh_young; [congruence|exact V]. }
  rewrite record_pre. destruct (pre_record i (Some r) d p) as [d1 p1]. destruct Y as [_ Y]. cbn [fst snd] in Y.
  unfold on_holder, ho_set. destruct (N.eqb _ 0); [|exact Y].
  destruct Y as [Y|(Y1 & program & l & Y2)]; [left; exact Y|right]. split; [exact Y1|]. exists program, l. unfold fresh. cbn [fst dr_log].
  rewrite made_as_app. change (ho_pipeline (pp_holder (with_holder p1 (with_sets (pp_holder p1) (set_nth i (dr_next d1) (ho_sets (pp_holder p1)))))) i) with (ho_pipeline (pp_holder p1) i).
  rewrite Y2. reflexivity.
Qed.
