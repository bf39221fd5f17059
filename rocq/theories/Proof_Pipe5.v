(* Descriptor pools: whole histories. *)
From Verif Require Export Proof_Pipe4.
From Coq Require Import Lia ZifyBool ZifyNat ZifyN Permutation PeanoNat.
Local Open Scope N_scope.

Definition flagged (p : ppass) : Prop :=
  match pp_kind p with Compute => exists i, nth i (pp_initialised p) false = true | _ => pp_prepared p = true end.
Definition RD (p : ppass) : Prop := (flagged p -> ho_layout (pp_holder p) <> 0) /\ (ho_layout (pp_holder p) <> 0 -> ho_pool (pp_holder p) <> 0).
Definition LP (x : driver * ppass) : Prop := ho_layout (pp_holder (snd x)) <> 0 -> ho_pool (pp_holder (snd x)) <> 0.
Lemma LP_closed : closed True LP.
Proof.
  constructor.
  - intros nf i [d p] H. exact H.
  - intros i [d p] H. unfold LP, on_holder, ho_reset. cbn [fst snd]. destruct (N.eqb _ 0); exact H.
  - intros [d p] H. unfold LP, on_holder, ho_initialise. cbn [fst snd]. destruct (N.eqb _ 0); [|exact H]. cbn. intros _. lia.
  - intros _ [d p] H. unfold LP. cbn. auto.
  - intros d p rp H. exact H.
  - intros d p rp H. exact H.
  - intros d p i pc H. destruct pc; exact H.
Qed.
Definition has_layout (x : driver * ppass) : Prop := ho_layout (pp_holder (snd x)) <> 0.
Lemma hl_create nf i x : has_layout x -> has_layout (on_holder (ho_create nf i) x). Proof. destruct x. auto. Qed.
Lemma hl_reset i x : has_layout x -> has_layout (on_holder (ho_reset i) x).
Proof. destruct x as [d p]. unfold has_layout, on_holder, ho_reset. destruct (N.eqb _ 0); auto. Qed.
Lemma hl_guarded nf i x : has_layout x -> has_layout (on_holder (guarded_create nf i) x).
Proof. rewrite guarded_cases. destruct (N.eqb _ 0); [apply hl_create|auto]. Qed.
Lemma hl_initialise a c x : has_layout (on_holder (ho_initialise a c) x).
Proof. destruct x as [d p]. unfold has_layout, on_holder, ho_initialise. destruct (N.eqb_spec (ho_layout (pp_holder p)) 0); cbn; [lia|assumption]. Qed.
Lemma hl_resetRP rp i x : has_layout x -> has_layout (resetRenderPass rp i x).
Proof.
  intro H. unfold resetRenderPass. apply (hl_reset i) in H. destruct (on_holder (ho_reset i) x) as [d p]. apply hl_guarded. exact H.
Qed.
Lemma hl_set a c i x : has_layout x -> has_layout (on_holder (ho_set a c i) x).
Proof. destruct x as [d p]. unfold has_layout, on_holder, ho_set. destruct (N.eqb _ 0); auto. Qed.
Lemma hl_pre i rp d p : RD p -> (pp_kind p <> Compute -> pp_prepared p = false -> rp <> None) -> has_layout (pre_record i rp d p).
Proof.
  intros [H _] Hs. unfold pre_record, compute_create. unfold flagged in H. destruct (pp_kind p) eqn:Ek.
  - destruct (nth i (pp_initialised p) false) eqn:Ei; [apply H; exists i; exact Ei|].
    pose proof (hl_create (pipeline_info (snd (on_holder (ho_initialise (pp_images p) (pp_buffers p)) (d, p))) i) i _ (hl_initialise (pp_images p) (pp_buffers p) (d, p))) as X. destruct (on_holder (ho_create _ i) _) as [d1 p1]. exact X.
  - apply hl_guarded. destruct rp as [rp|].
    + unfold quad_initialise. apply hl_guarded. destruct (pp_prepared p) eqn:Ep; cbn [negb].
      * destruct (negb _); [apply hl_resetRP, H; reflexivity|apply H; reflexivity].
      * pose proof (hl_initialise (pp_images p) (pp_buffers p) (d, p)) as X. destruct (on_holder _ (d, p)) as [d1 p1]. exact X.
    + apply H. destruct (pp_prepared p); [reflexivity|]. exfalso. apply (Hs ltac:(discriminate) eq_refl). reflexivity.
  - apply hl_guarded. destruct rp as [rp|].
    + unfold mesh_initialise. destruct (on_holder ho_cleanup (d, p)) as [d1 p1]. pose proof (hl_initialise (pp_images p1) (pp_buffers p1) (d1, p1)) as X.
      destruct (on_holder _ (d1, p1)) as [d2 p2]. apply hl_guarded. destruct (N.eqb _ 0); [exact X|]. destruct (negb _); [apply hl_resetRP, X|exact X].
    + apply H. destruct (pp_prepared p); [reflexivity|]. exfalso. apply (Hs ltac:(discriminate) eq_refl). reflexivity.
Qed.

(* the other passes *)
Lemma HP_other d0 pool0 d pool q bq : GP d0 -> extends d0 pool0 d pool -> HP d0 q bq -> ho_pool q < dr_next d0 ->
  (ho_pool q <> 0 -> ho_pool q <> pool0) -> HP d q bq.
Proof.
  intros G (E1 & E2 & es & E3 & E4 & E5) H Hlt Hne Hp. destruct (H Hp) as (H1 & H2 & H3 & H4 & H5). specialize (Hne Hp). rewrite E3.
  split; [exact H1|]. split; [apply known_app, H2|]. split; [rewrite layout_app by exact H2; exact H3|]. split.
  - rewrite sets_app by (intros x s y X; apply (proj1 G x s y X)). rewrite (sets_none _ es), app_nil_r; [exact H4|].
    intros x s y X. specialize (E4 x s y X). intro Z. subst x. destruct E4; [congruence|lia].
  - intros ms sz X. apply in_app_or in X. destruct X as [X|X]; [apply (H5 ms sz X)|]. specialize (E5 _ _ _ X). lia.
Qed.
Lemma total_in k id p m x : keys_sorted m -> mfind id m = Some p -> (own k (pp_holder p) x <= total k m x)%nat.
Proof. intros Hs Hf. rewrite (total_find k id p m x Hs Hf). lia. Qed.
Lemma WI_pools w id p : WI true KPool w -> mfind id (pw_passes w) = Some p -> ho_pool (pp_holder p) <> 0 -> ho_pool (pp_holder p) < dr_next (pw_driver w) /\
  forall id' q, id' <> id -> mfind id' (pw_passes w) = Some q -> ho_pool (pp_holder q) <> ho_pool (pp_holder p).
Proof.
  intros (H1 & (_ & l & L1 & L2 & L3 & L4) & _) Hf Hn. specialize (L4 _ Hn). cbn [rel queued] in L4.
  assert (O : own KPool (pp_holder p) (ho_pool (pp_holder p)) = 1%nat) by (unfold own; cbn [owned count_occ]; destruct (N.eq_dec _ _); [reflexivity|contradiction]).
  pose proof (total_in KPool id p _ (ho_pool (pp_holder p)) H1 Hf) as T.
  assert (C : (cnt l (ho_pool (pp_holder p)) <= 1)%nat) by (apply NoDup_count_occ; exact L2). split.
  - apply L3. apply (count_occ_In N.eq_dec). lia.
  - intros id' q Ne Hq E. rewrite (total_find KPool id p _ _ H1 Hf) in L4.
    assert (Hq' : mfind id' (merase id (pw_passes w)) = Some q) by (rewrite merase_find; destruct (N.eqb_spec id' id); [contradiction|exact Hq]).
    pose proof (total_in KPool id' q _ (ho_pool (pp_holder p)) (merase_sorted _ _ H1) Hq') as T'.
    assert (O' : own KPool (pp_holder q) (ho_pool (pp_holder p)) = 1%nat) by (unfold own; cbn [owned count_occ]; destruct (N.eq_dec _ _); [reflexivity|congruence]).
    lia.
Qed.

Definition fits (p : ppass) : Prop :=
  N.of_nat (length (pp_images p) + length (pp_buffers p)) * N.of_nat (length (ho_sets (pp_holder p))) < 4294967296 /\ N.of_nat (length (ho_sets (pp_holder p))) < 4294967296.
Definition pass_part (d : driver) (p : ppass) : Prop :=
  HP d (pp_holder p) (fill_bindings (pp_images p) (pp_buffers p)) /\ fits p /\ RD p /\ (ho_pool (pp_holder p) = 0 -> nonzero (ho_sets (pp_holder p)) = 0%nat).
Definition WP (w : pworld) : Prop :=
  WI true KPool w /\ WI true KSetLayout w /\ GP (pw_driver w) /\ forall id p, mfind id (pw_passes w) = Some p -> pass_part (pw_driver w) p.

Lemma WP_full w id p : WP w -> mfind id (pw_passes w) = Some p ->
  full_part (pw_driver w) (ho_pool (pp_holder p)) (pp_images p) (pp_buffers p) (length (ho_sets (pp_holder p)))
    (total KPool (merase id (pw_passes w))) (total KSetLayout (merase id (pw_passes w))) (pw_driver w, p).
Proof.
  intros (H1 & H2 & H3 & H4) Hf. destruct (H4 id p Hf) as (P1 & P2 & P3 & P4).
  split; [auto|]. split; [split; [apply (WI_pass true KPool w id p H1 Hf)|apply (WI_pass true KSetLayout w id p H2 Hf)]|].
  split; [exact H3|]. split; [exact P1|]. split; [apply extends_refl|exact P4].
Qed.
Lemma WP_put w id p d p' : WP w -> mfind id (pw_passes w) = Some p ->
  full_part (pw_driver w) (ho_pool (pp_holder p)) (pp_images p) (pp_buffers p) (length (ho_sets (pp_holder p)))
    (total KPool (merase id (pw_passes w))) (total KSetLayout (merase id (pw_passes w))) (d, p') -> RD p' ->
  WP {| pw_driver := d; pw_passes := mput id p' (pw_passes w) |}.
Proof.
  intros W Hf ((S1 & S2 & S3) & (F1 & F2) & G1 & G2 & G3 & G4) R. pose proof W as (H1 & H2 & H3 & H4). cbn [fst snd] in *.
  split; [apply WI_put; [exact H1|exact F1|intros _ ?; discriminate]|]. split; [apply WI_put; [exact H2|exact F2|intros _ ?; discriminate]|]. split; [exact G1|].
  cbn [pw_passes pw_driver]. intros id' q. rewrite mfind_mput. destruct (N.eqb_spec id' id) as [E|E].
  - intro X. injection X as <-. destruct (H4 id p Hf) as (P1 & P2 & P3 & P4). split; [rewrite S1, S2; exact G2|]. split; [unfold fits; rewrite S1, S2, S3; exact P2|]. split; [exact R|exact G4].
  - intro Hq. destruct (H4 id' q Hq) as (P1 & P2 & P3 & P4). split; [|split; [exact P2|split; [exact P3|exact P4]]].
    destruct (N.eq_dec (ho_pool (pp_holder q)) 0) as [Z|Z]; [intro X; contradiction|].
    destruct (WI_pools w id' q H1 Hq Z) as [L1 L2].
    apply (HP_other (pw_driver w) (ho_pool (pp_holder p)) d (ho_pool (pp_holder p'))); try assumption.
    intros _ X. apply (L2 id p ltac:(congruence) Hf). symmetry. exact X.
Qed.

Lemma WP_record w id i rp : WP w -> record_sane w id i rp -> WP (fst (do_record w id i rp)).
Proof.
  intros W (S1 & S2 & S3). unfold do_record. destruct (mfind id (pw_passes w)) as [p|] eqn:E; [|exact W]. rewrite record_pre.
  pose proof (WP_full w id p W E) as F. pose proof (proj2 (proj2 (proj2 W)) id p E) as (P1 & (P2 & P2') & P3 & P4).
  pose proof (hl_pre i rp (pw_driver w) p P3 (S2 p eq_refl)) as HL.
  pose proof (cl_pre _ _ LP_closed i rp (pw_driver w) p (fun _ _ => I) (proj2 P3)) as HLP.
  pose proof (cl_pre _ _ (full_closed _ _ _ _ _ _ _ P2 P2') i rp (pw_driver w) p (fun _ _ => I) F) as F1.
  pose proof (own_set _ _ _ _ _ _ _ P2 P2' i _ F1 (HLP HL) (S1 p E)) as F2.
  pose proof (hl_set (pp_images p) (pp_buffers p) i _ HL) as HL2.
  assert (HP2 : ho_pool (pp_holder (snd (on_holder (ho_set (pp_images p) (pp_buffers p) i) (pre_record i rp (pw_driver w) p)))) <> 0).
  { specialize (HLP HL). destruct (pre_record i rp (pw_driver w) p) as [d1 p1]. cbn in *. unfold ho_set. destruct (N.eqb _ 0); exact HLP. }
  destruct (on_holder (ho_set (pp_images p) (pp_buffers p) i) (pre_record i rp (pw_driver w) p)) as [d' p']. cbn [fst snd] in *.
  apply (WP_put w id p d' p' W E F2). split; intros _; assumption.
Qed.
Lemma WP_records l : forall w, WP w -> records_sane w l -> WP (fst (do_records w l)).
Proof.
  induction l as [|[[id i] rp] l IH]; intros w H Hs; [exact H|]. cbn [do_records]. destruct Hs as [S1 S2].
  pose proof (WP_record w id i rp H S1) as H1. destruct (do_record w id i rp) as [w1 b1]. cbn [fst] in *. specialize (IH w1 H1 S2).
  destruct (do_records w1 l) as [w2 b2]. exact IH.
Qed.
Lemma WP_quiet w es n q f : WP w -> quiet es -> dr_next (pw_driver w) <= n -> f (pw_driver w) = mk n (dr_log (pw_driver w) ++ es) q ->
  (forall k r, inv true k (pw_driver w) r -> inv true k (f (pw_driver w)) r) -> WP (on_driver f w).
Proof.
  intros (H1 & H2 & H3 & H4) Q Hn E Hi. split; [apply WI_driver; [apply Hi|exact H1]|]. split; [apply WI_driver; [apply Hi|exact H2]|].
  cbn [on_driver pw_driver pw_passes]. rewrite E. split; [apply GP_quiet; assumption|]. intros id p Hf. destruct (H4 id p Hf) as (P1 & P2 & P3 & P4).
  split; [apply HP_quiet; assumption|]. auto.
Qed.

Lemma WP_step w o : WP w -> op_sane w o -> op_counts_fit o -> WP (pstep w o).
Proof.
  intros W S C. pose proof W as (H1 & H2 & H3 & H4). destruct o as [id g kd n m a c cr|id i rp|id i pc|id|g l|g]; cbn [pstep].
  - pose proof (WI_step true KPool w (ONew id g kd n m a c cr) H1 ltac:(discriminate)) as I1.
    pose proof (WI_step true KSetLayout w (ONew id g kd n m a c cr) H2 ltac:(discriminate)) as I2. cbn [pstep] in I1, I2.
    destruct (mfind id (pw_passes w)) as [p|] eqn:E; [exact W|].
    split; [exact I1|]. split; [exact I2|]. split; [exact H3|]. cbn [pw_passes pw_driver]. intros id' q. rewrite mfind_mput. destruct (N.eqb_spec id' id) as [Ei|Ei]; [|apply H4].
    intro X. injection X as <-. split; [intro X; cbn in X; contradiction|]. cbn in C. split; [unfold fits; cbn; rewrite repeat_length; exact C|].
    split; [|intros _; cbn; clear; induction m as [|m IH]; [reflexivity|exact IH]].
    split; [|cbn; auto]. unfold flagged. cbn. destruct kd; [|discriminate|discriminate]. intros [i X]. rewrite nth_repeat in X. discriminate.
  - apply WP_record; assumption.
  - destruct (mfind id (pw_passes w)) as [p|] eqn:E; [|exact W].
    pose proof (WP_full w id p W E) as F. destruct (H4 id p E) as (P1 & (P2 & P2') & P3 & P4).
    pose proof (cl_passreset _ _ (full_closed _ _ _ _ _ _ _ P2 P2') i pc (pw_driver w) p F) as F1.
    assert (R : ho_layout (pp_holder (snd (pass_reset i pc (pw_driver w) p))) = ho_layout (pp_holder p) /\ ho_pool (pp_holder (snd (pass_reset i pc (pw_driver w) p))) = ho_pool (pp_holder p)
       /\ (flagged (snd (pass_reset i pc (pw_driver w) p)) <-> flagged p)).
    { set (Z := fun y : driver * ppass => ho_layout (pp_holder (snd y)) = ho_layout (pp_holder p) /\ ho_pool (pp_holder (snd y)) = ho_pool (pp_holder p) /\ (flagged (snd y) <-> flagged p)).
      assert (X : forall nf y, Z y -> Z (on_holder (ho_create nf i) y)) by (intros nf [d y] Y; exact Y).
      assert (Y : Z (on_holder (ho_reset i) (pw_driver w, p))) by (unfold Z, on_holder, ho_reset; destruct (N.eqb _ 0); cbn; repeat split; auto).
      change (Z (pass_reset i pc (pw_driver w) p)). unfold pass_reset. destruct (on_holder (ho_reset i) (pw_driver w, p)) as [d1 p1].
      assert (Y1 : Z (d1, with_code p1 i pc)) by (destruct pc; exact Y).
      destruct (pp_kind p1); [apply X, Y1| |]; (destruct (N.eqb _ 0); [exact Y1|]; unfold doCreatePipeline; rewrite guarded_cases; destruct (N.eqb _ 0); [apply X, Y1|exact Y1]). }
    destruct (pass_reset i pc (pw_driver w) p) as [d' p']. cbn [snd] in R. destruct R as (R1 & R2 & R3).
    apply (WP_put w id p d' p' W E F1). unfold RD. rewrite R1, R2, R3. exact P3.
  - pose proof (WI_step true KPool w (ODestroy id) H1 ltac:(discriminate)) as I1.
    pose proof (WI_step true KSetLayout w (ODestroy id) H2 ltac:(discriminate)) as I2. cbn [pstep] in I1, I2.
    destruct (mfind id (pw_passes w)) as [p|] eqn:E; [|exact W].
    split; [exact I1|]. split; [exact I2|]. cbn [pw_passes pw_driver ho_cleanup fst].
    rewrite !destroy_one.
    assert (Q : quiet (flat_map (destroy_event KPool) [ho_pool (pp_holder p)] ++ flat_map (destroy_event KPipeline) (ho_pipelines (pp_holder p)) ++
        flat_map (destroy_event KLayout) [ho_layout (pp_holder p)] ++ flat_map (destroy_event KSetLayout) [ho_setLayout (pp_holder p)])).
    { unfold quiet. rewrite !forallb_app. rewrite !(destroy_quiet _ _). reflexivity. }
    split; [apply GP_quiet; [exact H3|exact Q|lia]|].
    intros id' q. rewrite merase_find. destruct (N.eqb id' id); [discriminate|]. intro Hq. destruct (H4 id' q Hq) as (P1 & P2 & P3 & P4).
    split; [apply HP_quiet; assumption|]. auto.
  - unfold do_run. cbn [op_sane] in S. set (w0 := on_driver _ w) in *.
    assert (W0 : WP w0). { apply (WP_quiet w [PWaited g] (dr_next (pw_driver w)) (dr_queue (pw_driver w))); try reflexivity; [exact W|]. intros k r. apply inv_log. reflexivity. }
    pose proof (WP_records l w0 W0 S) as W1. destruct (do_records w0 l) as [w1 bound]. cbn [fst] in W1.
    apply (WP_quiet w1 (map (PDestroyed KPipeline) (dr_queue (pw_driver w1)) ++ [PSubmitted g bound]) (dr_next (pw_driver w1)) []).
    + exact W1.
    + unfold quiet. rewrite forallb_app. cbn. rewrite andb_true_r. apply forallb_forall. intros e X. apply in_map_iff in X. destruct X as (y & <- & _). reflexivity.
    + lia.
    + unfold log, clear_queue, mk. cbn [dr_log dr_next dr_queue]. f_equal. rewrite app_assoc. reflexivity.
    + intros k r Hr. apply inv_log; [reflexivity|]. apply inv_clear, Hr.
  - apply (WP_quiet w [PWaited g] (dr_next (pw_driver w)) (dr_queue (pw_driver w))); try reflexivity; [exact W|]. intros k r. apply inv_log. reflexivity.
Qed.
Lemma WP_run ops : forall w, WP w -> sane w ops -> Forall op_counts_fit ops -> WP (prun w ops).
Proof.
  induction ops as [|o r IH]; intros w H Hs Hf; [exact H|]. change (prun w (o :: r)) with (prun (pstep w o) r). destruct Hs as [S1 S2]. inversion Hf; subst.
  apply IH; [apply WP_step; assumption|exact S2|assumption].
Qed.
Lemma WP_new : WP new_pworld.
Proof.
  split; [apply WI_new|]. split; [apply WI_new|]. split; [|discriminate]. split; [intros ? ? ? []|]. split; [intros ? ? []|]. split; [intros ? ? ? []|].
  intros l1 e l2 E. destruct l1; discriminate.
Qed.
