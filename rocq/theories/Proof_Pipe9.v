(* What the pipelines were created from, over whole histories. *)
From Verif Require Export Proof_Pipe8.
From Coq Require Import Lia ZifyBool ZifyNat ZifyN PeanoNat.
Local Open Scope N_scope.


Lemma pass_good_ext d d' p es : dr_log d' = dr_log d ++ es -> GV d' -> pass_good d p -> pass_good d' p.
Proof.
  intros E V (G & F & In). split; [|split; assumption]. destruct G as [G1 G2 G3 G4 G5 G0 G6]. cbn [fst snd] in *. constructor; cbn [fst snd]; try assumption.
  intros i Hi. specialize (G5 i Hi). unfold slot_good in *. intro Hn. destruct (G5 Hn) as (r & l & X1 & X2). exists r, l. split; [|exact X2].
  rewrite E, made_as_app, X1. reflexivity.
Qed.
Definition WG (w : pworld) (made : N -> option N) : Prop :=
  GV (pw_driver w) /\
  forall id p, mfind id (pw_passes w) = Some p -> pass_good (pw_driver w) p /\
    (pp_kind p <> Compute -> pp_prepared p = true -> made id = Some (pp_renderPass p)).
Lemma record_ext i rp d p : exists es, dr_log (fst (fst (pass_record i rp d p))) = dr_log d ++ es.
Proof.
  rewrite record_pre. pose proof (cl_pre _ _ (ext_closed True d) i rp d p (fun _ _ => I) (ext_refl True d)) as X.
  pose proof (ext_set True d (pp_images p) (pp_buffers p) i _ X) as (es & E & _). destruct (on_holder (ho_set _ _ i) (pre_record i rp d p)) as [d' p']. exists es. exact E.
Qed.
Lemma reset_ext i c d p : exists es, dr_log (fst (pass_reset i c d p)) = dr_log d ++ es.
Proof.
  pose proof (cl_passreset _ _ (ext_closed True d) i c d p (ext_refl True d)) as (es & E & _). exists es. exact E.
Qed.
Definition same_pass (p p' : ppass) : Prop := still p p' /\ pp_code p' = pp_code p /\ pp_creator p' = pp_creator p.
Lemma same_pass_refl p : same_pass p p. Proof. split; [apply still_refl|split; reflexivity]. Qed.
Lemma same_pass_trans p q r : same_pass p q -> same_pass q r -> same_pass p r.
Proof. intros (A1 & A2 & A3) (B1 & B2 & B3). split; [eapply still_trans; eassumption|]. split; congruence. Qed.
Definition passes_kept (w w' : pworld) : Prop := forall q p, mfind q (pw_passes w) = Some p -> exists p', mfind q (pw_passes w') = Some p' /\ same_pass p p'.

Lemma record_served i rp d p : shape p -> (i < length (ho_sets (pp_holder p)))%nat -> pp_kind p = Compute ->
  nth i (pp_initialised (snd (fst (pass_record i rp d p)))) false = true.
Proof.
  intros Sh Hi K. unfold pass_record. rewrite K. destruct (nth i (pp_initialised p) false) eqn:E.
  - unfold on_holder. destruct (ho_set _ _ i d (pp_holder p)) as [d1 h1]. exact E.
  - destruct (frame_on (ho_initialise (pp_images p) (pp_buffers p)) (d, p) (dims_initialise _ _)) as (A1 & _).
    destruct (on_holder (ho_initialise (pp_images p) (pp_buffers p)) (d, p)) as [d1 p1]. cbn [snd] in A1.
    destruct (frame_on (ho_create (pipeline_info p1 i) i) (d1, p1) (dims_create _ i)) as (B1 & _).
    change (on_holder (ho_create (pipeline_info p1 i) i) (d1, p1)) with (compute_create i (d1, p1)) in B1.
    destruct (compute_create i (d1, p1)) as [d2 p2]. cbn [snd] in B1. pose proof (frame_trans _ _ _ A1 B1) as (_ & _ & _ & C).
    unfold on_holder. destruct (ho_set _ _ i d2 (pp_holder (with_initialised p2 i))) as [d3 h3]. cbn [fst snd with_holder pp_initialised with_initialised].
    rewrite nth_set_nth, Nat.eqb_refl. cbn [andb]. rewrite C. destruct (Nat.ltb_spec i (length (pp_initialised p))) as [X|X]; [reflexivity|]. exfalso. unfold shape, dims in Sh. lia.
Qed.
(* What is known of a pipeline just bound. *)
Definition bound_as (w' : pworld) (made : N -> option N) (id : N) (i : nat) (h : N) : Prop :=
  exists p' r l, mfind id (pw_passes w') = Some p' /\ h <> 0 /\ made_as (dr_log (pw_driver w')) h = Some (getProgram p' i, r, l) /\
    l = ho_layout (pp_holder p') /\ l <> 0 /\ (pp_kind p' = Compute -> r = 0) /\
    (pp_kind p' <> Compute -> length (ho_sets (pp_holder p')) = 1%nat -> made id = Some r).
Lemma WG_record w id i rp made : WG w made -> record_sane w id i rp ->
  let made' := fun x => made_in x [(id, i, rp)] (made x) in
  WG (fst (do_record w id i rp)) made' /\ passes_kept w (fst (do_record w id i rp)) /\
  forall h, In h (snd (do_record w id i rp)) -> bound_as (fst (do_record w id i rp)) made' id i h.
Proof.
  intros [V H] (S1 & S2 & S3) made'. unfold do_record. destruct (mfind id (pw_passes w)) as [p|] eqn:E.
  2:{ cbn [fst snd]. split; [|split; [intros q p X; exists p; split; [exact X|apply same_pass_refl]|intros h []]]. split; [exact V|]. intros q p X. destruct (H q p X) as [P M]. split; [exact P|].
      intros K1 K2. unfold made'. cbn. destruct rp as [r|]; [|apply M; assumption]. destruct (N.eqb_spec q id); [congruence|]. apply M; assumption. }
  destruct (H id p E) as [P M]. specialize (S1 p E). specialize (S2 p eq_refl).
  pose proof (record_good i rp (pw_driver w) p P S1 S2 S3) as R. destruct (record_ext i rp (pw_driver w) p) as [es Es].
  pose proof (record_served i rp (pw_driver w) p (g_shape _ (proj1 P)) S1) as RS.
  destruct (pass_record i rp (pw_driver w) p) as [[d' p'] h]. cbn [fst snd] in *. destruct R as (R1 & R2 & R3 & R4 & R5 & R6 & R7).
  assert (V' : GV d') by apply (g_v _ (proj1 R1)).
  assert (Kd : pp_kind p' = pp_kind p) by apply R4.
  assert (Mp : pp_kind p' <> Compute -> made' id = Some (pp_renderPass p')).
  { intro K1. rewrite Kd in K1. destruct (R7 K1) as [R8 R9]. unfold made'. cbn. rewrite R9. destruct rp as [r|]; [rewrite N.eqb_refl; reflexivity|].
    apply M; [exact K1|]. destruct (pp_prepared p); [reflexivity|]. exfalso. apply (S2 K1 eq_refl). reflexivity. }
  split; [|split].
  - split; [exact V'|]. cbn [pw_driver pw_passes]. intros q q'. rewrite mfind_mput. destruct (N.eqb_spec q id) as [Eq|Eq].
    + intro X. injection X as <-. subst q. split; [exact R1|]. intros K1 _. apply Mp, K1.
    + intro X. destruct (H q q' X) as [P' M']. split; [apply (pass_good_ext _ _ _ es Es V' P')|]. intros K1 K2. unfold made'. cbn.
      destruct rp as [r|]; [destruct (N.eqb_spec q id); [contradiction|]|]; apply M'; assumption.
  - intros q q0 X. cbn [pw_passes]. rewrite mfind_mput. destruct (N.eqb_spec q id) as [Eq|Eq]; [|exists q0; split; [exact X|apply same_pass_refl]].
    subst q. rewrite E in X. injection X as <-. exists p'. split; [reflexivity|]. split; [exact R4|]. split; assumption.
  - intros h' [ <- | [] ]. destruct R1 as (G & F & _). pose proof (g_slots _ G i) as Q. cbn [fst snd] in Q. rewrite (sets_still _ _ R4) in Q. specialize (Q S1).
    unfold slot_good in Q. rewrite <- R2 in Q. destruct (Q R3) as (r & l & X1 & X2 & X3 & X4). exists p', r, l. cbn [pw_passes pw_driver]. rewrite mfind_mput_same.
    assert (Sv : served p' i) by (intro K; apply RS; congruence).
    assert (Lz : ho_layout (pp_holder p') <> 0).
    { destruct (pp_kind p') eqn:K; [apply (g_init _ G K i (Sv K))| |]; destruct (R7 ltac:(congruence)) as [R8 _]; apply (proj2 (F ltac:(congruence)) R8). }
    split; [reflexivity|]. split; [exact R3|]. split; [exact X1|]. split; [apply X2, Sv|]. split; [rewrite (X2 Sv); exact Lz|]. split; [exact X3|]. intros K1 K2. rewrite (X4 K1 K2). apply Mp, K1.
Qed.
Lemma kept_trans w1 w2 w3 : passes_kept w1 w2 -> passes_kept w2 w3 -> passes_kept w1 w3.
Proof.
  intros A B q p X. destruct (A q p X) as (p1 & X1 & Y1). destruct (B q p1 X1) as (p2 & X2 & Y2). exists p2. split; [exact X2|eapply same_pass_trans; eassumption].
Qed.
Lemma WG_ext w m m' : (forall x, m x = m' x) -> WG w m -> WG w m'.
Proof. intros E [V H]. split; [exact V|]. intros id p X. rewrite <- E. apply H, X. Qed.
Lemma WG_records l : forall w made, WG w made -> records_sane w l ->
  WG (fst (do_records w l)) (fun x => made_in x l (made x)) /\ passes_kept w (fst (do_records w l)).
Proof.
  induction l as [|[[id i] rp] l IH]; intros w made H S.
  - split; [exact H|]. intros q p X. exists p. split; [exact X|apply same_pass_refl].
  - destruct S as [S1 S2]. destruct (WG_record w id i rp made H S1) as (A & B & _). cbn [do_records]. destruct (do_record w id i rp) as [w1 b1]. cbn [fst] in *.
    destruct (IH w1 _ A S2) as (C & D). destruct (do_records w1 l) as [w2 b2]. cbn [fst] in *. split; [|eapply kept_trans; eassumption].
    revert C. apply WG_ext. intro x. reflexivity.
Qed.
Lemma GV_driver d es n q : GV d -> no_made es = true -> dr_next d <= n -> GV {| dr_next := n; dr_log := dr_log d ++ es; dr_queue := q |}.
Proof.
  intros [V1 V2] H Hn. split; cbn [dr_next dr_log]; [lia|]. intros h x. rewrite made_as_app, (no_made_none es h H). destruct (made_as (dr_log d) h) as [y|] eqn:E; [|discriminate].
  intros _. specialize (V2 h y E). lia.
Qed.
Lemma WG_driver w f es made : dr_log (f (pw_driver w)) = dr_log (pw_driver w) ++ es -> no_made es = true -> dr_next (f (pw_driver w)) = dr_next (pw_driver w) ->
  WG w made -> WG (on_driver f w) made.
Proof.
  intros E1 E2 E3 [V H]. assert (V' : GV (f (pw_driver w))).
  { pose proof (GV_driver (pw_driver w) es (dr_next (pw_driver w)) [] V E2 ltac:(lia)) as [A B]. split; [rewrite E3; exact A|]. intros h x. rewrite E1, E3. apply B. }
  split; [exact V'|]. intros id p X. destruct (H id p X) as [P M]. split; [|exact M]. apply (pass_good_ext _ _ _ es E1 V' P).
Qed.
Lemma GV_cleanup d h : GV d -> GV (fst (ho_cleanup d h)).
Proof.
  intro V. unfold ho_cleanup. cbn [fst]. unfold log. apply GV_driver; [exact V| |lia].
  assert (K : forall k l, no_made (flat_map (destroy_event k) l) = true).
  { intros k l. induction l as [|x l IH]; [reflexivity|]. cbn [flat_map]. unfold no_made in *. rewrite forallb_app, IH. unfold destroy_event. destruct (N.eqb x 0); reflexivity. }
  rewrite !(destroy_one KPool), !(destroy_one KLayout), !(destroy_one KSetLayout). unfold no_made in *. rewrite !forallb_app, !K. reflexivity.
Qed.
Lemma destroyed_quiet l : no_made (map (PDestroyed KPipeline) l) = true.
Proof. unfold no_made. induction l; [reflexivity|exact IHl]. Qed.

(* The pass [q] after one operation. *)
Definition pass_after (o : pop) (q : N) (p p' : ppass) : Prop :=
  still p p' /\ pp_creator p' = pp_creator p /\ length (pp_code p') = length (pp_code p) /\
  forall j, (slot_of (pp_holder p) j < length (pp_code p))%nat ->
    nth (slot_of (pp_holder p') j) (pp_code p') 0 = given_by q (ho_programs (pp_holder p)) j o (nth (slot_of (pp_holder p) j) (pp_code p) 0).
Lemma still_slot p p' j : still p p' -> slot_of (pp_holder p') j = slot_of (pp_holder p) j.
Proof. intros (_ & _ & _ & _ & D). unfold dims in D. injection D as D _ _. unfold slot_of. rewrite D. reflexivity. Qed.
Lemma same_after o q p p' : (forall id i c, o = OReset id i (Some c) -> q <> id) -> same_pass p p' -> pass_after o q p p'.
Proof.
  intros Ho (A & B & C). split; [exact A|]. split; [exact C|]. split; [congruence|]. intros j _. rewrite (still_slot p p' j A), B.
  destruct o; try reflexivity. destruct program; [|reflexivity]. cbn. destruct (N.eqb_spec q id) as [E|E]; [|reflexivity]. exfalso. apply (Ho id index n eq_refl E).
Qed.

Lemma WG_step w o made : WG w made -> op_sane w o -> op_creator_ok o ->
  WG (pstep w o) (fun x => made_by x o (made x)) /\
  (forall q p, mfind q (pw_passes w) = Some p -> o <> ODestroy q -> exists p', mfind q (pw_passes (pstep w o)) = Some p' /\ pass_after o q p p').
Proof.
  intros H S C. pose proof H as [V Hp].
  assert (Keep : forall w', passes_kept w w' -> (forall id i c, o <> OReset id i (Some c)) ->
     forall q p, mfind q (pw_passes w) = Some p -> o <> ODestroy q -> exists p', mfind q (pw_passes w') = Some p' /\ pass_after o q p p').
  { intros w' K Ho q p X _. destruct (K q p X) as (p' & X' & Sm). exists p'. split; [exact X'|]. apply same_after; [|exact Sm]. intros id i c E. exfalso. apply (Ho id i c E). }
  destruct o as [id g kd n m a c cr|id i rp|id i pc|id|g l|g]; cbn [pstep made_by].
  - destruct (mfind id (pw_passes w)) as [p0|] eqn:E.
    { split; [exact H|]. apply Keep; [|discriminate]. intros q p X. exists p. split; [exact X|apply same_pass_refl]. }
    split.
    + split; [exact V|]. cbn [pw_passes pw_driver]. intros q p. rewrite mfind_mput. destruct (N.eqb_spec q id) as [Eq|Eq]; [|apply Hp]. intro X. injection X as <-.
      split; [|intros _ X; discriminate X]. cbn in S. destruct S as [S1 S2]. cbn in C.
      assert (Z : forall j, ho_pipeline (new_holder n m) j = 0) by (intro j; unfold ho_pipeline; cbn; apply nth_repeat).
      split; [|split].
      * constructor; cbn [fst snd new_ppass pp_holder pp_creator pp_code new_holder ho_sets ho_programs ho_layout].
        -- exact V.
        -- unfold shape, dims. cbn. rewrite !repeat_length. repeat split; auto.
        -- rewrite repeat_length. exact C.
        -- rewrite map_length, seq_length. reflexivity.
        -- intros j _. unfold slot_good. intro X. exfalso. apply X. apply Z.
        -- cbn. intros _ j X. rewrite nth_repeat in X. discriminate.
        -- intros _ _ j _. apply Z.
      * intros _. cbn. split; [|discriminate]. intros _. split; [reflexivity|]. intros j _. apply Z.
      * intros _ j _ X. cbn in X. rewrite nth_repeat in X. discriminate.
    + apply Keep; [|discriminate]. intros q p X. cbn [pw_passes]. rewrite mfind_mput. destruct (N.eqb_spec q id); [congruence|]. exists p. split; [exact X|apply same_pass_refl].
  - destruct (WG_record w id i rp made H S) as (A & B & _). split; [exact A|]. apply Keep; [exact B|discriminate].
  - destruct (mfind id (pw_passes w)) as [p|] eqn:E.
    2:{ split; [exact H|]. intros q p X _. exists p. split; [exact X|]. apply same_after; [|apply same_pass_refl]. intros id' i' c' Eo Eq. injection Eo as <- <- ->. congruence. }
    destruct (Hp id p E) as [P M]. pose proof (S p E) as Si.
    pose proof (reset_good i pc (pw_driver w) p P Si) as R. destruct (reset_ext i pc (pw_driver w) p) as [es Es].
    destruct (pass_reset i pc (pw_driver w) p) as [d' p']. cbn [fst] in Es. destruct R as (R1 & R2 & R3 & R4 & R5 & R6).
    assert (V' : GV d') by apply (g_v _ (proj1 R1)). assert (Kd : pp_kind p' = pp_kind p) by apply R2.
    split.
    + split; [exact V'|]. cbn [pw_passes pw_driver]. intros q q'. rewrite mfind_mput. destruct (N.eqb_spec q id) as [Eq|Eq].
      * intro X. injection X as <-. subst q. split; [exact R1|]. rewrite Kd, R4, R5. exact M.
      * intro X. destruct (Hp q q' X) as [P' M']. split; [apply (pass_good_ext _ _ _ es Es V' P')|exact M'].
    + intros q q0 X _. cbn [pw_passes]. rewrite mfind_mput. destruct (N.eqb_spec q id) as [Eq|Eq].
      * subst q. rewrite E in X. injection X as <-. exists p'. split; [reflexivity|]. split; [exact R2|]. split; [exact R3|]. split; [rewrite R6; destruct pc; [apply set_nth_length|reflexivity]|].
        intros j Hj. rewrite (still_slot p p' j R2), R6. cbn [given_by]. destruct pc as [c|]; [|reflexivity]. rewrite N.eqb_refl. cbn [andb]. rewrite nth_set_nth.
        unfold same_program. revert Hj. unfold slot_of. destruct (Nat.eqb_spec (ho_programs (pp_holder p)) 1) as [E1|E1]; cbn [orb]; intro Hj.
        -- cbn [Nat.eqb andb]. destruct (Nat.ltb_spec 0 (length (pp_code p))); [reflexivity|lia].
        -- destruct (Nat.eqb_spec i j) as [Ei|Ei].
           ++ subst j. rewrite Nat.eqb_refl. cbn [andb]. apply Nat.ltb_lt in Hj. rewrite Hj. reflexivity.
           ++ destruct (Nat.eqb_spec j i); [congruence|]. reflexivity.
      * exists q0. split; [exact X|]. apply same_after; [|apply same_pass_refl]. intros id' i' c' Eo Eq'. injection Eo as <- _ _. contradiction.
  - destruct (mfind id (pw_passes w)) as [p|] eqn:E.
    2:{ split; [exact H|]. apply Keep; [|discriminate]. intros q p X. exists p. split; [exact X|apply same_pass_refl]. }
    split.
    + assert (V' : GV (fst (ho_cleanup (pw_driver w) (pp_holder p))) /\ exists es, dr_log (fst (ho_cleanup (pw_driver w) (pp_holder p))) = dr_log (pw_driver w) ++ es).
      { split; [|cbn; eexists; reflexivity]. apply GV_cleanup, V. }
      destruct V' as [V' [es Es]]. split; [exact V'|]. cbn [pw_passes pw_driver]. intros q q'. rewrite merase_find. destruct (N.eqb q id); [discriminate|]. intro X.
      destruct (Hp q q' X) as [P' M']. split; [apply (pass_good_ext _ _ _ es Es V' P')|exact M'].
    + intros q p' X Hq. cbn [pw_passes]. rewrite merase_find. destruct (N.eqb_spec q id) as [Eq|Eq]; [subst q; contradiction|]. exists p'. split; [exact X|]. apply same_after; [discriminate|apply same_pass_refl].
  - unfold do_run. set (w0 := on_driver _ w).
    assert (H0 : WG w0 made) by (apply (WG_driver w _ [PWaited g]); [reflexivity|reflexivity|reflexivity|exact H]).
    destruct (WG_records l w0 made H0 S) as [A B]. destruct (do_records w0 l) as [w1 bound]. cbn [fst] in *. split.
    + eapply (WG_driver w1 _ (map (PDestroyed KPipeline) (dr_queue (pw_driver w1)) ++ [PSubmitted g bound])); [cbn; rewrite <- app_assoc; reflexivity| |reflexivity|exact A].
      unfold no_made. rewrite forallb_app. fold (no_made (map (PDestroyed KPipeline) (dr_queue (pw_driver w1)))). rewrite destroyed_quiet. reflexivity.
    + apply Keep; [|discriminate]. intros q p X. apply (B q p). exact X.
  - split; [apply (WG_driver w _ [PWaited g]); [reflexivity|reflexivity|reflexivity|exact H]|]. apply Keep; [|discriminate]. intros q p X. exists p. split; [exact X|apply same_pass_refl].
Qed.
Lemma WG_new : WG new_pworld (fun _ => None).
Proof. split; [split; [reflexivity|discriminate]|discriminate]. Qed.
Lemma WG_run ops : forall w made, WG w made -> sane w ops -> Forall op_creator_ok ops ->
  WG (prun w ops) (fun x => fold_left (fun cur o => made_by x o cur) ops (made x)).
Proof.
  induction ops as [|o r IH]; intros w made H S C; [exact H|]. destruct S as [S1 S2]. inversion C as [|? ? C1 C2]; subst.
  destruct (WG_step w o made H S1 C1 ) as [A _].
  pose proof (IH (pstep w o) _ A S2 C2) as B. revert B. apply WG_ext. intro x. reflexivity.
Qed.
(* The pass [q] after some operations that do not destroy it. *)
Lemma pass_history ops : forall w made q p, WG w made -> sane w ops -> Forall op_creator_ok ops -> ~ In (ODestroy q) ops ->
  mfind q (pw_passes w) = Some p -> exists p', mfind q (pw_passes (prun w ops)) = Some p' /\ still p p' /\ pp_creator p' = pp_creator p /\
    forall j, (slot_of (pp_holder p) j < length (pp_code p))%nat ->
      nth (slot_of (pp_holder p') j) (pp_code p') 0 = fold_left (fun cur o => given_by q (ho_programs (pp_holder p)) j o cur) ops (nth (slot_of (pp_holder p) j) (pp_code p) 0).
Proof.
  induction ops as [|o r IH]; intros w made q p H S C D E; [exists p; split; [exact E|]; split; [apply still_refl|]; split; [reflexivity|]; intros; reflexivity|].
  destruct S as [S1 S2]. inversion C as [|? ? C1 C2]; subst.
  destruct (WG_step w o made H S1 C1 ) as [A B].
  destruct (B q p E) as (p1 & E1 & B1 & B2 & B3 & B4); [intro X; apply D; left; exact X|].
  destruct (IH (pstep w o) _ q p1 A S2 C2 ltac:(intro X; apply D; right; exact X) E1) as (p' & E' & D1 & D2 & D3).
  exists p'. split; [exact E'|]. split; [eapply still_trans; eassumption|]. split; [congruence|]. intros j Hj. cbn [fold_left]. rewrite <- (B4 j Hj).
  assert (Pn : ho_programs (pp_holder p1) = ho_programs (pp_holder p)). { destruct B1 as (_ & _ & _ & _ & X). unfold dims in X. injection X as X _ _. exact X. }
  rewrite Pn in D3. apply D3. rewrite (still_slot p p1 j B1), B3. exact Hj.
Qed.

(* A run is a wait, recordings one after the other, and the submission of what they bound. *)
Definition record_op (x : N * nat * option N) : pop := let '(id, i, rp) := x in ORecord id i rp.
Lemma records_are l : forall w, fst (do_records w l) = prun w (map record_op l).
Proof.
  induction l as [|[[id i] rp] l IH]; intro w; [reflexivity|]. cbn [do_records map]. change (prun w (record_op (id, i, rp) :: map record_op l)) with (prun (fst (do_record w id i rp)) (map record_op l)).
  destruct (do_record w id i rp) as [w1 b]. cbn [fst]. rewrite <- IH. destruct (do_records w1 l). reflexivity.
Qed.
Lemma records_bind l1 : forall w id i rp l2, snd (do_records w (l1 ++ (id, i, rp) :: l2)) =
  snd (do_records w l1) ++ snd (do_record (prun w (map record_op l1)) id i rp) ++ snd (do_records (prun w (map record_op (l1 ++ [(id, i, rp)]))) l2).
Proof.
  induction l1 as [|[[id0 i0] rp0] l1 IH]; intros w id i rp l2.
  - cbn [app do_records map prun fold_left]. cbn [pstep record_op]. destruct (do_record w id i rp) as [w1 b]. cbn [fst snd]. destruct (do_records w1 l2). reflexivity.
  - cbn [app do_records map]. change (prun w (record_op (id0, i0, rp0) :: ?r)) with (prun (fst (do_record w id0 i0 rp0)) r).
    specialize (IH (fst (do_record w id0 i0 rp0)) id i rp l2).
    destruct (do_record w id0 i0 rp0) as [w1 b]. cbn [fst] in *. destruct (do_records w1 (l1 ++ (id, i, rp) :: l2)) as [w2 b2]. destruct (do_records w1 l1) as [w3 b3].
    cbn [snd] in *. rewrite IH, !app_assoc. reflexivity.
Qed.
