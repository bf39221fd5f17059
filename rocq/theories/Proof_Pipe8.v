(* What the pipelines bound by the passes were created from. *)
From Verif Require Export Proof_Pipe7.
From Coq Require Import Lia ZifyBool ZifyNat ZifyN PeanoNat.
Local Open Scope N_scope.

Lemma made_as_app l es h : made_as (l ++ es) h = match made_as l h with Some x => Some x | None => made_as es h end.
Proof.
  induction l as [|e l IH]; [reflexivity|]. cbn [app made_as]. destruct e; try exact IH. destruct (N.eqb h h0); [reflexivity|exact IH].
Qed.
Definition no_made (es : list pevent) : bool := forallb (fun e => match e with PPipeline _ _ _ _ => false | _ => true end) es.
Lemma no_made_none es h : no_made es = true -> made_as es h = None.
Proof.
  unfold no_made. induction es as [|e es IH]; [reflexivity|]. cbn [forallb made_as]. intro H. apply andb_prop in H. destruct H as [H1 H2].
  destruct e; try (apply IH, H2). discriminate.
Qed.
Definition GV (d : driver) : Prop := 0 < dr_next d /\ forall h x, made_as (dr_log d) h = Some x -> h < dr_next d.

(* The index was recorded, for a compute pass. *)
Definition served (p : ppass) (i : nat) : Prop := pp_kind p = Compute -> nth i (pp_initialised p) false = true.
Section Kept.
Definition slot_good (d : driver) (p : ppass) (i : nat) : Prop :=
  let h := ho_pipeline (pp_holder p) i in h <> 0 ->
  exists r l, made_as (dr_log d) h = Some (getProgram p i, r, l) /\ (served p i -> l = ho_layout (pp_holder p)) /\
    (pp_kind p = Compute -> r = 0) /\ (pp_kind p <> Compute -> length (ho_sets (pp_holder p)) = 1%nat -> r = pp_renderPass p).
Record good (x : driver * ppass) : Prop := {
  g_v : GV (fst x);
  g_shape : shape (snd x);
  g_cr : pp_creator (snd x) <> None -> (length (ho_sets (pp_holder (snd x))) <= ho_programs (pp_holder (snd x)))%nat;
  g_code : length (pp_code (snd x)) = ho_programs (pp_holder (snd x));
  g_slots : forall i, (i < length (ho_sets (pp_holder (snd x))))%nat -> slot_good (fst x) (snd x) i;
  g_init : pp_kind (snd x) = Compute -> forall i, nth i (pp_initialised (snd x)) false = true -> ho_layout (pp_holder (snd x)) <> 0;
  g_lay : pp_kind (snd x) <> Compute -> ho_layout (pp_holder (snd x)) = 0 -> forall i, (i < length (ho_sets (pp_holder (snd x))))%nat -> ho_pipeline (pp_holder (snd x)) i = 0 }.

(* the pipelines and the layout unchanged, the log longer *)
Lemma good_same d p d' p' es : good (d, p) -> dr_log d' = dr_log d ++ es -> no_made es = true -> dr_next d <= dr_next d' ->
  dims (pp_holder p') = dims (pp_holder p) -> ho_pipelines (pp_holder p') = ho_pipelines (pp_holder p) -> ho_layout (pp_holder p') = ho_layout (pp_holder p) ->
  pp_kind p' = pp_kind p -> pp_initialised p' = pp_initialised p -> pp_renderPass p' = pp_renderPass p -> pp_code p' = pp_code p -> pp_creator p' = pp_creator p ->
  good (d', p').
Proof.
  intros G E1 E2 E3 E4 E5 E6 E7 E8 E9 E10 E11. destruct G as [(V1 & V2) G2 G3 G4 G5 G0 G6]. cbn [fst snd] in *.
  unfold dims in E4. injection E4 as D1 D2 D3.
  assert (Q : forall i, ho_pipeline (pp_holder p') i = ho_pipeline (pp_holder p) i) by (intro i; unfold ho_pipeline, slot_of; rewrite D1, E5; reflexivity).
  assert (W : forall i, getProgram p' i = getProgram p i) by (intro i; unfold getProgram, slot_of; rewrite D1, E10, E11; reflexivity).
  assert (M : forall h, made_as (dr_log d') h = made_as (dr_log d) h).
  { intro h. rewrite E1, made_as_app, (no_made_none es h E2). destruct (made_as (dr_log d) h); reflexivity. }
  constructor; cbn [fst snd].
  - split; [lia|]. intros h x. rewrite M. intro X. specialize (V2 h x X). lia.
  - unfold shape, dims in *. rewrite D1, D2, D3, E8. exact G2.
  - rewrite E11, D3, D1. exact G3.
  - rewrite E10, D1. exact G4.
  - rewrite D3. intros i Hi. specialize (G5 i Hi). unfold slot_good, served in *. rewrite Q, M, W, E6, E7, E8, E9, D3. exact G5.
  - rewrite E7, E8, E6. exact G0.
  - rewrite E7, E6, D3. intros L Z i Hi. rewrite Q. apply G6; assumption.
Qed.

(* a creation in an empty slot or not *)
Lemma good_create i d p : good (d, p) -> (i < length (ho_sets (pp_holder p)))%nat -> (pp_kind p <> Compute -> ho_layout (pp_holder p) <> 0) ->
  good (compute_create i (d, p)).
Proof.
  intros [(V1 & V2) G2 G3 G4 G5 G0 G6] Hi Hl. cbn [fst snd] in *. pose proof (slot_in p i G2 Hi) as Hs.
  unfold compute_create, on_holder, ho_create, fresh. cbn [snd]. set (n := dr_next d). set (s := slot_of (pp_holder p) i) in *.
  assert (M : forall h, h < n -> made_as (dr_log d ++ [PCreated KPipeline n; PPipeline n (fst (pipeline_info p i)) (snd (pipeline_info p i)) (ho_layout (pp_holder p))]) h = made_as (dr_log d) h).
  { intros h Hh. rewrite made_as_app. destruct (made_as (dr_log d) h); [reflexivity|]. cbn [made_as]. destruct (N.eqb_spec h n); [lia|reflexivity]. }
  assert (M0 : made_as (dr_log d) n = None). { destruct (made_as (dr_log d) n) as [x|] eqn:E; [|reflexivity]. specialize (V2 n x E). unfold n in V2. lia. }
  assert (Q : forall j, ho_pipeline (with_pipelines (pp_holder p) (set_nth s n (ho_pipelines (pp_holder p)))) j = if Nat.eqb s (slot_of (pp_holder p) j) then n else ho_pipeline (pp_holder p) j).
  { intro j. unfold ho_pipeline. cbn [with_pipelines ho_pipelines]. unfold slot_of. cbn [ho_programs]. fold (slot_of (pp_holder p) j). rewrite nth_set_nth.
    apply Nat.ltb_lt in Hs. rewrite Hs, andb_true_r. reflexivity. }
  constructor; cbn [fst snd with_holder pp_holder].
  - split; cbn [dr_next dr_log]; [fold n; lia|]. intros h x. rewrite made_as_app. destruct (made_as (dr_log d) h) as [y|] eqn:E.
    + intros _. specialize (V2 h y E). lia.
    + cbn [made_as]. fold n. destruct (N.eqb_spec h n); [subst; intros; lia|discriminate].
  - unfold shape, dims in *. cbn. rewrite set_nth_length. exact G2.
  - exact G3.
  - exact G4.
  - intros j Hj. specialize (G5 j Hj). unfold slot_good in *. cbn [with_holder pp_holder dr_log]. rewrite Q.
    destruct (Nat.eqb_spec s (slot_of (pp_holder p) j)) as [E|E].
    + intros _. exists (snd (pipeline_info p i)), (ho_layout (pp_holder p)). rewrite made_as_app, M0. cbn [made_as]. rewrite N.eqb_refl.
      split; [|split; [intros _; reflexivity|]].
      * f_equal. f_equal. f_equal. unfold pipeline_info. cbn [fst]. unfold getProgram. cbn [with_holder pp_creator pp_holder pp_code with_pipelines].
        destruct (pp_creator p) as [f|] eqn:Ec.
        -- f_equal. unfold s, slot_of in E. specialize (G3 ltac:(congruence)). cbn [with_pipelines ho_sets] in Hj. revert E. destruct (Nat.eqb_spec (ho_programs (pp_holder p)) 1) as [E1|E1]; intro E; lia.
        -- unfold slot_of at 2. cbn [ho_programs]. fold (slot_of (pp_holder p) j). fold s. rewrite E. reflexivity.
      * cbn [with_holder pp_kind pp_renderPass with_pipelines ho_sets]. unfold pipeline_info. cbn [snd]. destruct (pp_kind p); split; intros; congruence || reflexivity.
    + intro Hn. destruct (G5 Hn) as (r & l & X1 & X2 & X3). exists r, l. split; [|split; [exact X2|exact X3]].
      rewrite M; [exact X1|]. apply (V2 _ _ X1).
  - exact G0.
  - intros L Z. exfalso. apply (Hl L). exact Z.
Qed.
Lemma good_guarded i d p : good (d, p) -> (i < length (ho_sets (pp_holder p)))%nat -> (pp_kind p <> Compute -> ho_layout (pp_holder p) <> 0) ->
  good (doCreatePipeline i (d, p)).
Proof.
  intros G Hi Hl. unfold doCreatePipeline. rewrite guarded_cases. destruct (N.eqb _ 0); [apply (good_create i d p G Hi Hl)|exact G].
Qed.

(* the slot emptied, then a program given *)
Lemma good_reset i c d p : good (d, p) -> (i < length (ho_sets (pp_holder p)))%nat ->
  let '(d1, p1) := on_holder (ho_reset i) (d, p) in good (d1, with_code p1 i c) /\ ho_pipeline (pp_holder (with_code p1 i c)) i = 0.
Proof.
  intros G Hi. pose proof G as [(V1 & V2) G2 G3 G4 G5 G0 G6]. cbn [fst snd] in *. pose proof (slot_in p i G2 Hi) as Hs.
  set (s := slot_of (pp_holder p) i) in *.
  assert (E : exists d1 p1, on_holder (ho_reset i) (d, p) = (d1, p1) /\ dr_log d1 = dr_log d /\ dr_next d1 = dr_next d /\
     pp_holder p1 = with_pipelines (pp_holder p) (set_nth s 0 (ho_pipelines (pp_holder p))) /\ pp_kind p1 = pp_kind p /\ pp_initialised p1 = pp_initialised p /\
     pp_renderPass p1 = pp_renderPass p /\ pp_code p1 = pp_code p /\ pp_creator p1 = pp_creator p).
  { unfold on_holder, ho_reset. destruct (N.eqb_spec (ho_pipeline (pp_holder p) i) 0) as [E|E].
    - eexists _, _. split; [reflexivity|]. cbn. repeat (split; [reflexivity|]). split; [|repeat split].
      assert (X : set_nth s 0 (ho_pipelines (pp_holder p)) = ho_pipelines (pp_holder p)).
      { unfold ho_pipeline in E. fold s in E. revert E. clear. generalize s. induction (ho_pipelines (pp_holder p)) as [|x l IH]; intros [|m] E; cbn in *; try reflexivity; [subst; reflexivity|]. f_equal. apply IH, E. }
      rewrite X. destruct (pp_holder p); reflexivity.
    - eexists _, _. split; [reflexivity|]. cbn. repeat split. }
  destruct E as (d1 & p1 & -> & E1 & E2 & E3 & E4 & E5 & E6 & E7 & E8).
  destruct (still_code p1 i c) as ((_ & C1 & _) & C2 & C3 & C4).
  assert (Q : forall j, ho_pipeline (pp_holder p1) j = if Nat.eqb s (slot_of (pp_holder p) j) then 0 else ho_pipeline (pp_holder p) j).
  { intro j. rewrite E3. unfold ho_pipeline. cbn [with_pipelines ho_pipelines]. unfold slot_of. cbn [ho_programs]. fold (slot_of (pp_holder p) j). rewrite nth_set_nth.
    apply Nat.ltb_lt in Hs. rewrite Hs, andb_true_r. reflexivity. }
  assert (Ds : ho_sets (pp_holder p1) = ho_sets (pp_holder p) /\ ho_programs (pp_holder p1) = ho_programs (pp_holder p) /\ ho_layout (pp_holder p1) = ho_layout (pp_holder p)) by (rewrite E3; repeat split).
  destruct Ds as (D1 & D2 & D3).
  split.
  - constructor; cbn [fst snd].
    + unfold GV. rewrite E1, E2. split; assumption.
    + unfold shape, dims in *. rewrite C4, C2, E5, E3. cbn. rewrite set_nth_length. exact G2.
    + rewrite C4, D1, D2. replace (pp_creator (with_code p1 i c)) with (pp_creator p) by (destruct c; cbn; congruence). exact G3.
    + rewrite C4, D2. destruct c; cbn [with_code pp_code]; rewrite ?set_nth_length, E7; exact G4.
    + rewrite C4, D1. intros j Hj. specialize (G5 j Hj). unfold slot_good, served in *. rewrite C4, C1, C2, C3, Q, D1, D3, E4, E5, E6, E1.
      destruct (Nat.eqb_spec s (slot_of (pp_holder p) j)) as [E|E]; [intro X; contradiction|]. intro Hn. destruct (G5 Hn) as (r & l & X1 & X2). exists r, l. split; [|exact X2].
      rewrite X1. f_equal. f_equal. f_equal. unfold getProgram. rewrite C4. replace (pp_creator (with_code p1 i c)) with (pp_creator p) by (destruct c; cbn; congruence).
      destruct (pp_creator p); [reflexivity|]. unfold slot_of at 2. rewrite D2. fold (slot_of (pp_holder p) j). destruct c as [c|]; cbn [with_code pp_code]; rewrite E7; [|reflexivity].
      rewrite nth_set_nth. unfold slot_of at 2. rewrite D2. fold (slot_of (pp_holder p) i). fold s. destruct (Nat.eqb_spec s (slot_of (pp_holder p) j)); [contradiction|reflexivity].
    + rewrite C1, C2, C4, D3, E4, E5. exact G0.
    + rewrite C1, C4, D1, D3, E4. intros L Z j Hj. rewrite Q, (G6 L Z j Hj). destruct (Nat.eqb _ _); reflexivity.
  - rewrite C4, Q. fold s. rewrite Nat.eqb_refl. reflexivity.
Qed.
(* the descriptors made *)
Lemma good_init a b d p : good (d, p) -> good (on_holder (ho_initialise a b) (d, p)) /\ ho_layout (pp_holder (snd (on_holder (ho_initialise a b) (d, p)))) <> 0 /\
  ho_pipelines (pp_holder (snd (on_holder (ho_initialise a b) (d, p)))) = ho_pipelines (pp_holder p).
Proof.
  intro G. unfold on_holder, ho_initialise. destruct (N.eqb_spec (ho_layout (pp_holder p)) 0) as [E|E].
  2:{ cbn [snd with_holder pp_holder]. split; [|split; [exact E|reflexivity]]. destruct p; exact G. }
  unfold fresh. cbn [dr_next dr_log dr_queue snd with_holder pp_holder ho_layout ho_pipelines].
  assert (V : 0 < dr_next d) by apply (g_v _ G). split; [|split; [lia|reflexivity]].
  destruct G as [(V1 & V2) G2 G3 G4 G5 G0 G6]. cbn [fst snd] in *. rewrite <- !app_assoc. cbn [app].
  set (es := [_; _; _; _; _]).
  assert (M : forall h, made_as (dr_log d ++ es) h = made_as (dr_log d) h).
  { intro h. rewrite made_as_app. unfold es. cbn [made_as]. destruct (made_as (dr_log d) h); reflexivity. }
  constructor; cbn [fst snd with_holder pp_holder ho_sets ho_programs ho_layout dr_log dr_next].
  - split; cbn [dr_log dr_next]; [lia|]. intros h x. rewrite M. intro X. specialize (V2 h x X). lia.
  - exact G2.
  - exact G3.
  - exact G4.
  - intros i Hi. unfold slot_good. cbn [with_holder pp_holder ho_sets ho_programs ho_layout dr_log pp_kind pp_renderPass]. intro Hn.
    change (ho_pipeline (pp_holder p) i <> 0) in Hn. destruct (G5 i Hi Hn) as (r & l & X1 & X2 & X3). exists r, l.
    split; [rewrite M; exact X1|]. split; [|exact X3]. intro L. exfalso. unfold served in L. cbn [with_holder pp_kind pp_initialised] in L. destruct (pp_kind p) eqn:Ek.
    + apply (G0 eq_refl i (L eq_refl)), E.
    + apply Hn, (G6 ltac:(discriminate) E i Hi).
    + apply Hn, (G6 ltac:(discriminate) E i Hi).
  - intros _ j _. lia.
  - intros L Z. lia.
Qed.
(* everything destroyed, and the descriptors made again *)
Lemma good_cleanup d p : pp_kind p <> Compute -> good (d, p) -> good (on_holder ho_cleanup (d, p)) /\ forall i, ho_pipeline (pp_holder (snd (on_holder ho_cleanup (d, p)))) i = 0.
Proof.
  intros Kc [(V1 & V2) G2 G3 G4 G5 G0 G6]. cbn [fst snd] in *. unfold on_holder, ho_cleanup. cbn [snd with_holder pp_holder].
  set (es := _ ++ _ ++ _).
  assert (Z : forall i (h : pholder), nth i (map (fun _ : N => 0) (ho_pipelines h)) 0 = 0).
  { intros i h. revert i. induction (ho_pipelines h) as [|x l IH]; intros [|i]; cbn; auto. }
  assert (N1 : no_made es = true).
  { assert (K : forall k l, no_made (flat_map (destroy_event k) l) = true).
    { intros k l. induction l as [|x l IH]; [reflexivity|]. cbn [flat_map]. unfold no_made in *. rewrite forallb_app, IH. unfold destroy_event. destruct (N.eqb x 0); reflexivity. }
    unfold es. rewrite !(destroy_one KPool), !(destroy_one KLayout), !(destroy_one KSetLayout). unfold no_made in *. rewrite !forallb_app, !K. reflexivity. }
  split; [|intro i; apply Z].
  assert (M : forall h, made_as (dr_log d ++ es) h = made_as (dr_log d) h).
  { intro h. rewrite made_as_app, (no_made_none es h N1). destruct (made_as (dr_log d) h); reflexivity. }
  constructor; cbn [fst snd with_holder pp_holder ho_sets ho_programs ho_layout log dr_log dr_next].
  - split; cbn [log dr_log dr_next]; [lia|]. intros h x. rewrite M. apply V2.
  - unfold shape, dims in *. cbn. rewrite !map_length. exact G2.
  - rewrite map_length. exact G3.
  - exact G4.
  - intros i Hi. unfold slot_good. intro Hn. exfalso. apply Hn. apply Z.
  - cbn [with_holder pp_kind]. intro X. contradiction.
  - intros L _ i Hi. apply Z.
Qed.
Lemma good_rp d p rp : good (d, p) -> (length (ho_sets (pp_holder p)) = 1%nat -> ho_pipeline (pp_holder p) 0 = 0) -> good (d, with_renderPass p rp).
Proof.
  intros [G1 G2 G3 G4 G5 G0 G6] Hz. cbn [fst snd] in *. constructor; cbn [fst snd with_renderPass pp_holder pp_creator pp_code]; try assumption.
  intros i Hi. specialize (G5 i Hi). unfold slot_good in *. cbn [with_renderPass pp_holder pp_kind pp_renderPass]. intro Hn. destruct (G5 Hn) as (r & l & X1 & X2 & X3 & X4).
  exists r, l. split; [exact X1|]. split; [exact X2|]. split; [exact X3|]. intros _ Em. exfalso. rewrite Em in Hi. assert (i = 0%nat) by lia. subst i. apply Hn, Hz, Em.
Qed.
Lemma good_served d p i : good (d, p) -> ho_layout (pp_holder p) <> 0 ->
  (forall j x, slot_of (pp_holder p) j = slot_of (pp_holder p) i -> made_as (dr_log d) (ho_pipeline (pp_holder p) j) = Some x -> snd x = ho_layout (pp_holder p)) ->
  good (d, with_initialised p i).
Proof.
  intros [G1 G2 G3 G4 G5 G0 G6] Hl Hx. cbn [fst snd] in *. constructor; cbn [fst snd with_initialised pp_holder pp_creator pp_code pp_kind pp_initialised]; try assumption.
  - unfold shape in *. cbn [with_initialised pp_holder pp_initialised]. rewrite set_nth_length. exact G2.
  - intros j Hj. specialize (G5 j Hj). unfold slot_good, served in *. cbn [with_initialised pp_holder pp_kind pp_renderPass pp_initialised]. intro Hn.
    destruct (G5 Hn) as (r & l & X1 & X2 & X3). exists r, l. split; [exact X1|]. split; [|exact X3]. rewrite nth_set_nth. destruct (Nat.eqb_spec i j) as [E|E]; [subst j|exact X2].
    intros _. apply (Hx i _ eq_refl X1).
  - intros K j _. exact Hl.
Qed.
Lemma create_made i d p : GV d -> (slot_of (pp_holder p) i < length (ho_pipelines (pp_holder p)))%nat ->
  forall j x, slot_of (pp_holder p) j = slot_of (pp_holder p) i ->
  made_as (dr_log (fst (compute_create i (d, p)))) (ho_pipeline (pp_holder (snd (compute_create i (d, p)))) j) = Some x -> snd x = ho_layout (pp_holder p).
Proof.
  intros [V1 V2] Hs j x Ej. unfold compute_create, on_holder, ho_create, fresh. cbn [fst snd with_holder pp_holder dr_log].
  assert (Q : ho_pipeline (with_pipelines (pp_holder p) (set_nth (slot_of (pp_holder p) i) (dr_next d) (ho_pipelines (pp_holder p)))) j = dr_next d).
  { unfold ho_pipeline. change (slot_of (with_pipelines (pp_holder p) (set_nth (slot_of (pp_holder p) i) (dr_next d) (ho_pipelines (pp_holder p)))) j) with (slot_of (pp_holder p) j).
    cbn [with_pipelines ho_pipelines]. rewrite Ej, nth_set_nth, Nat.eqb_refl. cbn [andb].
    apply Nat.ltb_lt in Hs. rewrite Hs. reflexivity. }
  rewrite Q, made_as_app. destruct (made_as (dr_log d) (dr_next d)) as [y|] eqn:E; [specialize (V2 _ _ E); lia|]. cbn [made_as]. rewrite N.eqb_refl. intro X. injection X as <-. reflexivity.
Qed.
End Kept.

Lemma still_slot0 p p' j : still p p' -> slot_of (pp_holder p') j = slot_of (pp_holder p) j.
Proof. intros (_ & _ & _ & _ & D). unfold dims in D. injection D as D _ _. unfold slot_of. rewrite D. reflexivity. Qed.
(* What the operations leave alone. *)
Definition frame (p p' : ppass) : Prop := still p p' /\ pp_code p' = pp_code p /\ pp_creator p' = pp_creator p /\ pp_initialised p' = pp_initialised p.
Lemma frame_refl p : frame p p. Proof. split; [apply still_refl|repeat split]. Qed.
Lemma frame_trans p q r : frame p q -> frame q r -> frame p r.
Proof. intros (A1 & A2 & A3 & A4) (B1 & B2 & B3 & B4). split; [eapply still_trans; eassumption|]. repeat split; congruence. Qed.
Lemma frame_on f x : (forall d h, dims (snd (f d h)) = dims h) -> frame (snd x) (snd (on_holder f x)) /\
  pp_prepared (snd (on_holder f x)) = pp_prepared (snd x) /\ pp_renderPass (snd (on_holder f x)) = pp_renderPass (snd x).
Proof.
  intro H. destruct (still_on f x H) as (A & B & C & D). split; [|split; assumption]. split; [exact A|].
  destruct x as [d p]. unfold on_holder. destruct (f d (pp_holder p)). repeat split.
Qed.
Lemma frame_rp p rp : frame p (with_renderPass p rp). Proof. split; [apply still_rp|repeat split]. Qed.
Lemma frame_sets p p' : frame p p' -> length (ho_sets (pp_holder p')) = length (ho_sets (pp_holder p)).
Proof. intros (A & _). apply sets_still, A. Qed.
Lemma docreate_frame i x : frame (snd x) (snd (doCreatePipeline i x)) /\ pp_prepared (snd (doCreatePipeline i x)) = pp_prepared (snd x) /\
  pp_renderPass (snd (doCreatePipeline i x)) = pp_renderPass (snd x) /\ ho_layout (pp_holder (snd (doCreatePipeline i x))) = ho_layout (pp_holder (snd x)).
Proof.
  unfold doCreatePipeline. destruct (frame_on (guarded_create (pipeline_info (snd x) i) i) x (dims_guarded _ i)) as (A & B & C). repeat (split; [assumption|]).
  rewrite guarded_cases. destruct (N.eqb _ 0); [|reflexivity]. destruct x as [d p]. reflexivity.
Qed.

Section Pass.
Definition flags (p : ppass) : Prop :=
  (pp_kind p <> Compute ->
    (pp_prepared p = false -> pp_renderPass p = 0 /\ forall i, (i < length (ho_sets (pp_holder p)))%nat -> ho_pipeline (pp_holder p) i = 0) /\
    (pp_prepared p = true -> pp_renderPass p <> 0 /\ ho_layout (pp_holder p) <> 0)).
(* a graphics pass with its layout and its render pass *)
Definition ready (rp : N) (p0 : ppass) (x : driver * ppass) : Prop :=
  good x /\ frame p0 (snd x) /\ pp_prepared (snd x) = true /\ pp_renderPass (snd x) = rp /\ ho_layout (pp_holder (snd x)) <> 0.
Lemma ready_create rp p0 i x : ready rp p0 x -> (i < length (ho_sets (pp_holder p0)))%nat -> ready rp p0 (doCreatePipeline i x).
Proof.
  intros (A & B & C & D & E) Hi. destruct x as [d p]. cbn [snd] in *.
  pose proof (good_guarded i d p A ltac:(rewrite (frame_sets _ _ B); exact Hi) (fun _ => E)) as G.
  destruct (docreate_frame i (d, p)) as (F1 & F2 & F3 & F4). cbn [snd] in *.
  split; [exact G|]. split; [eapply frame_trans; eassumption|]. split; [congruence|]. split; [congruence|]. rewrite F4. exact E.
Qed.
Lemma ready_reset rp p0 r' i x : ready rp p0 x -> (i < length (ho_sets (pp_holder p0)))%nat -> ready r' p0 (resetRenderPass r' i x).
Proof.
  intros (A & B & C & D & E) Hi. destruct x as [d p]. cbn [snd] in *. unfold resetRenderPass.
  pose proof (frame_sets _ _ B) as Es.
  pose proof (good_reset i None d p A ltac:(rewrite Es; exact Hi)) as G.
  destruct (frame_on (ho_reset i) (d, p) (dims_reset i)) as (F1 & F2 & F3).
  assert (F4 : ho_layout (pp_holder (snd (on_holder (ho_reset i) (d, p)))) = ho_layout (pp_holder p)) by (unfold on_holder, ho_reset; destruct (N.eqb _ 0); reflexivity).
  destruct (on_holder (ho_reset i) (d, p)) as [d1 p1]. cbn [snd with_code] in *. destruct G as [G Z].
  apply (ready_create r' p0 i); [|exact Hi].
  assert (X : good (d1, with_renderPass p1 r')).
  { apply good_rp; [exact G|]. intro Em. pose proof (frame_sets _ _ F1) as Es1. assert (i = 0%nat) by lia. subst i. exact Z. }
  split; [exact X|]. split; [eapply frame_trans; [eapply frame_trans; eassumption|apply frame_rp]|]. split; [reflexivity|]. split; [reflexivity|]. cbn. rewrite F4. exact E.
Qed.
Lemma quad_ready rp i d p : good (d, p) -> flags p -> pp_kind p <> Compute -> rp <> 0 -> (i < length (ho_sets (pp_holder p)))%nat -> ready rp p (quad_initialise rp i (d, p)).
Proof.
  intros G F K Hr Hi. unfold quad_initialise. apply ready_create; [|exact Hi]. rename F into F0; pose proof F0 as F. destruct (F K) as [F1 F2]. destruct (pp_prepared p) eqn:Ep; cbn [negb].
  - destruct (F2 eq_refl) as [R L]. assert (Rd : ready (pp_renderPass p) p (d, p)) by (split; [exact G|]; split; [apply frame_refl|]; auto).
    destruct (N.eqb_spec (pp_renderPass p) rp) as [E|E]; cbn [negb]; [subst rp; exact Rd|]. apply (ready_reset (pp_renderPass p)); assumption.
  - destruct (F1 eq_refl) as [R Z]. destruct (good_init (pp_images p) (pp_buffers p) d p G) as (G1 & L1 & P1).
    destruct (frame_on (ho_initialise (pp_images p) (pp_buffers p)) (d, p) (dims_initialise _ _)) as (A1 & A2 & A3).
    destruct (on_holder (ho_initialise (pp_images p) (pp_buffers p)) (d, p)) as [d1 p1]. cbn [snd] in *.
    split; [|split; [eapply frame_trans; [exact A1|apply frame_rp]|]; auto].
    apply good_rp; [exact G1|]. intro Em. pose proof (frame_sets _ _ A1) as Es. destruct A1 as ((_ & _ & _ & _ & D) & _). unfold dims in D. injection D as D1 _ _.
    unfold ho_pipeline, slot_of. rewrite P1, D1. apply (Z 0%nat). lia.
Qed.
Lemma mesh_ready rp i d p : good (d, p) -> flags p -> pp_kind p <> Compute -> rp <> 0 -> (i < length (ho_sets (pp_holder p)))%nat -> ready rp p (mesh_initialise rp i (d, p)).
Proof.
  intros G F K Hr Hi. unfold mesh_initialise. destruct (good_cleanup d p K G) as [G0 Z0]. destruct (frame_on ho_cleanup (d, p) dims_cleanup) as (A1 & A2 & A3).
  destruct (on_holder ho_cleanup (d, p)) as [d0 p0]. cbn [snd] in *.
  destruct (good_init (pp_images p0) (pp_buffers p0) d0 p0 G0) as (G1 & L1 & P1).
  destruct (frame_on (ho_initialise (pp_images p0) (pp_buffers p0)) (d0, p0) (dims_initialise _ _)) as (B1 & B2 & B3).
  destruct (on_holder (ho_initialise (pp_images p0) (pp_buffers p0)) (d0, p0)) as [d1 p1]. cbn [snd] in *.
  pose proof (frame_trans _ _ _ A1 B1) as C1. apply ready_create; [|exact Hi].
  assert (Z1 : forall r, good (d1, with_renderPass p1 r)).
  { intro r. apply good_rp; [exact G1|]. intros _. destruct B1 as ((_ & _ & _ & _ & D) & _). unfold dims in D. injection D as D1 _ _.
    unfold ho_pipeline, slot_of. rewrite P1, D1. apply (Z0 0%nat). }
  rename F into F0; pose proof F0 as F. destruct (F K) as [F1 F2].
  destruct (pp_prepared p) eqn:Ep.
  - destruct (F2 eq_refl) as [R L]. destruct (N.eqb_spec (pp_renderPass p1) 0) as [E|E]; [congruence|].
    assert (Rd : ready (pp_renderPass p1) p (d1, p1)) by (split; [exact G1|]; split; [exact C1|]; split; [cbn; congruence|]; auto).
    destruct (N.eqb_spec (pp_renderPass p1) rp) as [E2|E2]; cbn [negb]; [subst rp; exact Rd|]. apply (ready_reset (pp_renderPass p1)); assumption.
  - destruct (F1 eq_refl) as [R _]. destruct (N.eqb_spec (pp_renderPass p1) 0) as [E|E]; [|congruence].
    split; [apply Z1|]. split; [eapply frame_trans; [exact C1|apply frame_rp]|]. auto.
Qed.

Definition pass_good (d : driver) (p : ppass) : Prop := good (d, p) /\ flags p /\ IN p.

Lemma record_good i rp d p : pass_good d p -> (i < length (ho_sets (pp_holder p)))%nat ->
  (pp_kind p <> Compute -> pp_prepared p = false -> rp <> None) -> (forall n, rp = Some n -> n <> 0) ->
  let '(d', p', h) := pass_record i rp d p in
  pass_good d' p' /\ h = ho_pipeline (pp_holder p') i /\ h <> 0 /\ still p p' /\ pp_code p' = pp_code p /\ pp_creator p' = pp_creator p /\
  (pp_kind p <> Compute -> pp_prepared p' = true /\ pp_renderPass p' = match rp with Some r => r | None => pp_renderPass p end).
Proof.
  intros (G & F & In) Hi Hs Hr. pose proof (record_bound i rp d p (g_shape _ G) In (proj1 (g_v _ G)) Hi) as RB. rewrite record_pre in *.
  assert (Q : good (pre_record i rp d p) /\ still p (snd (pre_record i rp d p)) /\ pp_code (snd (pre_record i rp d p)) = pp_code p /\ pp_creator (snd (pre_record i rp d p)) = pp_creator p /\
     flags (snd (pre_record i rp d p)) /\
     (pp_kind p <> Compute -> pp_prepared (snd (pre_record i rp d p)) = true /\ pp_renderPass (snd (pre_record i rp d p)) = match rp with Some r => r | None => pp_renderPass p end)).
  { unfold pre_record. destruct (pp_kind p) eqn:Ek.
    - destruct (nth i (pp_initialised p) false) eqn:Ei.
      { cbn [snd]. split; [exact G|]. split; [apply still_refl|]. split; [reflexivity|]. split; [reflexivity|]. split; [exact F|]. intro X. contradiction. }
      destruct (good_init (pp_images p) (pp_buffers p) d p G) as (G1 & L1 & P1).
      destruct (frame_on (ho_initialise (pp_images p) (pp_buffers p)) (d, p) (dims_initialise _ _)) as (A1 & A2 & A3).
      destruct (on_holder (ho_initialise (pp_images p) (pp_buffers p)) (d, p)) as [d1 p1]. cbn [snd] in *.
      pose proof (good_create i d1 p1 G1 ltac:(rewrite (frame_sets _ _ A1); exact Hi) (fun _ => L1)) as G2.
      destruct (frame_on (ho_create (pipeline_info p1 i) i) (d1, p1) (dims_create _ i)) as (B1 & B2 & B3).
      assert (B4 : ho_layout (pp_holder (snd (compute_create i (d1, p1)))) = ho_layout (pp_holder p1)) by reflexivity.
      change (on_holder (ho_create (pipeline_info p1 i) i) (d1, p1)) with (compute_create i (d1, p1)) in *.
      pose proof (create_made i d1 p1 (g_v _ G1) ltac:(apply slot_in; [apply (g_shape _ G1)|rewrite (frame_sets _ _ A1); exact Hi])) as Cm.
      destruct (compute_create i (d1, p1)) as [d2 p2]. cbn [snd] in *. pose proof (frame_trans _ _ _ A1 B1) as (C1 & C2 & C3 & C4).
      split.
      { apply good_served; [exact G2|rewrite B4; exact L1|]. intros j x Ej. rewrite B4. apply Cm. rewrite <- !(still_slot0 p1 p2 _ (proj1 B1)). exact Ej. }
      split; [exact C1|]. split; [exact C2|]. split; [exact C3|]. split; [|intro X; contradiction].
      assert (Ek2 : pp_kind p2 = Compute) by (destruct C1 as (_ & X & _); congruence).
      intro X. cbn [snd with_initialised pp_kind] in X. contradiction.
    - assert (X : exists r, ready r p (match rp with Some rp => quad_initialise rp i (d, p) | None => (d, p) end) /\ r <> 0 /\ r = match rp with Some r => r | None => pp_renderPass p end).
      { destruct rp as [r|].
        - exists r. split; [|split; [apply Hr; reflexivity|reflexivity]]. apply quad_ready; try assumption; [congruence|apply Hr; reflexivity].
        - destruct (pp_prepared p) eqn:Ep; [|exfalso; apply (Hs ltac:(discriminate) eq_refl); reflexivity].
          rename F into F0; pose proof F0 as F. destruct (F ltac:(congruence)) as [_ F2]. destruct (F2 Ep) as [R L]. exists (pp_renderPass p). split; [|auto]. split; [exact G|]. split; [apply frame_refl|]. auto. }
      destruct X as (r & X & Hr0 & Er). apply (ready_create _ _ i) in X; [|exact Hi]. destruct X as (X1 & (X2 & X3 & X4 & X5) & X6 & X7 & X8).
      split; [exact X1|]. split; [exact X2|]. split; [exact X3|]. split; [exact X4|]. split; [|intros _; split; [exact X6|congruence]].
      assert (Kq : pp_kind (snd (doCreatePipeline i (match rp with Some rp => quad_initialise rp i (d, p) | None => (d, p) end))) = Quad) by (destruct X2 as (_ & X & _); congruence).
      intros _. split; [intro X; congruence|]. intros _. split; [congruence|exact X8].
    - assert (X : exists r, ready r p (match rp with Some rp => mesh_initialise rp i (d, p) | None => (d, p) end) /\ r <> 0 /\ r = match rp with Some r => r | None => pp_renderPass p end).
      { destruct rp as [r|].
        - exists r. split; [|split; [apply Hr; reflexivity|reflexivity]]. apply mesh_ready; try assumption; [congruence|apply Hr; reflexivity].
        - destruct (pp_prepared p) eqn:Ep; [|exfalso; apply (Hs ltac:(discriminate) eq_refl); reflexivity].
          rename F into F0; pose proof F0 as F. destruct (F ltac:(congruence)) as [_ F2]. destruct (F2 Ep) as [R L]. exists (pp_renderPass p). split; [|auto]. split; [exact G|]. split; [apply frame_refl|]. auto. }
      destruct X as (r & X & Hr0 & Er). apply (ready_create _ _ i) in X; [|exact Hi]. destruct X as (X1 & (X2 & X3 & X4 & X5) & X6 & X7 & X8).
      split; [exact X1|]. split; [exact X2|]. split; [exact X3|]. split; [exact X4|]. split; [|intros _; split; [exact X6|congruence]].
      assert (Kq : pp_kind (snd (doCreatePipeline i (match rp with Some rp => mesh_initialise rp i (d, p) | None => (d, p) end))) = Mesh) by (destruct X2 as (_ & X & _); congruence).
      intros _. split; [intro X; congruence|]. intros _. split; [congruence|exact X8]. }
  destruct Q as (Q1 & Q2 & Q3 & Q4 & Q5 & Q6). destruct (pre_record i rp d p) as [d1 p1]. cbn [snd] in *.
  assert (Es : exists es, dr_log (fst (on_holder (ho_set (pp_images p) (pp_buffers p) i) (d1, p1))) = dr_log d1 ++ es /\ no_made es = true /\
     dr_next d1 <= dr_next (fst (on_holder (ho_set (pp_images p) (pp_buffers p) i) (d1, p1))) /\
     ho_pipelines (pp_holder (snd (on_holder (ho_set (pp_images p) (pp_buffers p) i) (d1, p1)))) = ho_pipelines (pp_holder p1) /\
     ho_layout (pp_holder (snd (on_holder (ho_set (pp_images p) (pp_buffers p) i) (d1, p1)))) = ho_layout (pp_holder p1)).
  { unfold on_holder, ho_set. destruct (N.eqb _ 0); cbn.
    - eexists. split; [reflexivity|]. split; [reflexivity|]. split; [lia|]. split; reflexivity.
    - exists []. split; [rewrite app_nil_r; reflexivity|]. split; [reflexivity|]. split; [lia|]. split; reflexivity. }
  destruct (frame_on (ho_set (pp_images p) (pp_buffers p) i) (d1, p1) (dims_set _ _ i)) as ((B1 & B2 & B3 & B4) & B5 & B6).
  destruct (on_holder (ho_set (pp_images p) (pp_buffers p) i) (d1, p1)) as [d2 p2]. cbn [fst snd] in *.
  destruct Es as (es & E1 & E2 & E3 & E4 & E5). destruct RB as (R1 & R2 & R3 & R4).
  assert (G2 : good (d2, p2)).
  { apply (good_same d1 p1 d2 p2 es Q1); try assumption; apply B1. }
  assert (D : dims (pp_holder p2) = dims (pp_holder p1)) by apply B1. unfold dims in D. injection D as D1 D2 D3.
  assert (Kd : pp_kind p2 = pp_kind p1) by apply B1.
  split.
  { split; [exact G2|]. split; [|exact R4]. intro K. rewrite Kd in K.
    - destruct (Q5 K) as [F3 F4]. rewrite B5, B6, E5, D3. split; [|exact F4]. intro X. destruct (F3 X) as [Y1 Y2]. split; [exact Y1|].
      intros j Hj. unfold ho_pipeline, slot_of. rewrite D1, E4. apply (Y2 j Hj). }
  split; [reflexivity|]. split; [exact R1|]. split; [eapply still_trans; eassumption|]. split; [congruence|]. split; [congruence|].
  intro K. destruct (Q6 K) as [Y1 Y2]. split; congruence.
Qed.

Lemma reset_good i c d p : pass_good d p -> (i < length (ho_sets (pp_holder p)))%nat ->
  let '(d', p') := pass_reset i c d p in
  pass_good d' p' /\ still p p' /\ pp_creator p' = pp_creator p /\ pp_prepared p' = pp_prepared p /\ pp_renderPass p' = pp_renderPass p /\
  pp_code p' = match c with Some c => set_nth (slot_of (pp_holder p) i) c (pp_code p) | None => pp_code p end.
Proof.
  intros (G & F & In) Hi. pose proof (reset_bound i c d p (g_shape _ G) In (proj1 (g_v _ G)) Hi) as [_ RB]. unfold pass_reset in *.
  pose proof (good_reset i c d p G Hi) as GR. destruct (frame_on (ho_reset i) (d, p) (dims_reset i)) as ((A1 & A2 & A3 & A4) & A5 & A6).
  assert (AL : ho_layout (pp_holder (snd (on_holder (ho_reset i) (d, p)))) = ho_layout (pp_holder p)) by (unfold on_holder, ho_reset; destruct (N.eqb _ 0); reflexivity).
  assert (AP : forall j, ho_pipeline (pp_holder p) j = 0 -> ho_pipeline (pp_holder (snd (on_holder (ho_reset i) (d, p)))) j = 0).
  { intros j Hj. unfold on_holder, ho_reset. destruct (N.eqb _ 0); [exact Hj|]. cbn [snd with_holder pp_holder]. unfold ho_pipeline in *. cbn [with_pipelines ho_pipelines].
    rewrite nth_set_nth. unfold slot_of in *. cbn [ho_programs]. destruct (andb _ _); [reflexivity|exact Hj]. }
  destruct (on_holder (ho_reset i) (d, p)) as [d1 p1]. cbn [snd] in *. destruct GR as [G1 Z1].
  destruct (still_code p1 i c) as (C1 & C2 & C3 & C4).
  assert (Cc : pp_creator (with_code p1 i c) = pp_creator p) by (destruct c; exact A3).
  assert (Cp : pp_prepared (with_code p1 i c) = pp_prepared p) by (destruct c; exact A5).
  assert (Ce : pp_code (with_code p1 i c) = match c with Some c => set_nth (slot_of (pp_holder p) i) c (pp_code p) | None => pp_code p end).
  { destruct c as [c|]; cbn [with_code pp_code]; rewrite A2; [|reflexivity]. destruct A1 as (_ & _ & _ & _ & D). unfold dims in D. injection D as D1 _ _. unfold slot_of. rewrite D1. reflexivity. }
  assert (S1 : still p (with_code p1 i c)) by (eapply still_trans; eassumption).
  assert (Es : length (ho_sets (pp_holder (with_code p1 i c))) = length (ho_sets (pp_holder p))) by (apply sets_still, S1).
  assert (El : ho_layout (pp_holder (with_code p1 i c)) = ho_layout (pp_holder p)) by (rewrite C4; exact AL).
  assert (Er : pp_renderPass (with_code p1 i c) = pp_renderPass p) by congruence.
  assert (Ei : pp_initialised (with_code p1 i c) = pp_initialised p) by congruence.
  assert (Ez : forall j, ho_pipeline (pp_holder p) j = 0 -> ho_pipeline (pp_holder (with_code p1 i c)) j = 0) by (intros j Hj; rewrite C4; apply AP, Hj).
  assert (Ek1 : pp_kind p1 = pp_kind p) by (apply A1). assert (Er1 : pp_renderPass p1 = pp_renderPass p) by exact A6.
  rewrite Ek1, Er1 in *. clear C1 C2 C3 C4 A1 A2 A3 A4 A5 A6 AL AP Ek1 Er1. set (q := with_code p1 i c) in *. clearbody q.
  assert (Kq : pp_kind q = pp_kind p) by apply S1.
  rename F into F2.
  assert (Create : forall x, x = compute_create i (d1, q) \/ x = doCreatePipeline i (d1, q) -> frame q (snd x) /\ pp_prepared (snd x) = pp_prepared q /\ pp_renderPass (snd x) = pp_renderPass q /\ ho_layout (pp_holder (snd x)) = ho_layout (pp_holder q)).
  { intros x [ -> | -> ]; [|apply (docreate_frame i (d1, q))]. destruct (frame_on (ho_create (pipeline_info q i) i) (d1, q) (dims_create _ i)) as (B1 & B2 & B3). split; [exact B1|]. split; [exact B2|]. split; [exact B3|reflexivity]. }
  destruct (pp_kind p) eqn:Ek.
  - pose proof (good_create i d1 q G1 ltac:(rewrite Es; exact Hi) ltac:(intro X; contradiction)) as G2.
    destruct (Create (compute_create i (d1, q)) (or_introl eq_refl)) as ((B1 & B2 & B3 & B4) & B5 & B6 & B7).
    destruct (compute_create i (d1, q)) as [d2 p2]. cbn [snd] in *. assert (K2 : pp_kind p2 = pp_kind q) by apply B1.
    split; [split; [exact G2|split; [|exact RB]]|split; [eapply still_trans; eassumption|repeat split; congruence]].
    intro X. congruence.
  - destruct (F2 ltac:(congruence)) as [F3 F4]. destruct (N.eqb_spec (pp_renderPass p) 0) as [E|E].
    + cbn [snd] in RB. split; [split; [exact G1|split; [|exact RB]]|split; [exact S1|repeat split; congruence]].
      intros _. rewrite Cp, Er, El, Es. split; [|exact F4]. intro X. destruct (F3 X) as [Y1 Y2]. split; [exact Y1|]. intros j Hj. apply Ez, Y2, Hj.
    + destruct (pp_prepared p) eqn:Ep; [|exfalso; apply E, (F3 eq_refl)]. destruct (F4 eq_refl) as [_ L].
      pose proof (good_guarded i d1 q G1 ltac:(rewrite Es; exact Hi) (fun _ => eq_ind_r (fun a => a <> 0) L El)) as G2.
      destruct (Create (doCreatePipeline i (d1, q)) (or_intror eq_refl)) as ((B1 & B2 & B3 & B4) & B5 & B6 & B7).
      destruct (doCreatePipeline i (d1, q)) as [d2 p2]. cbn [snd] in *. assert (K2 : pp_kind p2 = pp_kind q) by apply B1.
      split; [split; [exact G2|split; [|exact RB]]|split; [eapply still_trans; eassumption|repeat split; congruence]].
      intros _. split; [intro X; congruence|]. intros _. rewrite B6, Er, B7, El. split; assumption.
  - destruct (F2 ltac:(congruence)) as [F3 F4]. destruct (N.eqb_spec (pp_renderPass p) 0) as [E|E].
    + cbn [snd] in RB. split; [split; [exact G1|split; [|exact RB]]|split; [exact S1|repeat split; congruence]].
      intros _. rewrite Cp, Er, El, Es. split; [|exact F4]. intro X. destruct (F3 X) as [Y1 Y2]. split; [exact Y1|]. intros j Hj. apply Ez, Y2, Hj.
    + destruct (pp_prepared p) eqn:Ep; [|exfalso; apply E, (F3 eq_refl)]. destruct (F4 eq_refl) as [_ L].
      pose proof (good_guarded i d1 q G1 ltac:(rewrite Es; exact Hi) (fun _ => eq_ind_r (fun a => a <> 0) L El)) as G2.
      destruct (Create (doCreatePipeline i (d1, q)) (or_intror eq_refl)) as ((B1 & B2 & B3 & B4) & B5 & B6 & B7).
      destruct (doCreatePipeline i (d1, q)) as [d2 p2]. cbn [snd] in *. assert (K2 : pp_kind p2 = pp_kind q) by apply B1.
      split; [split; [exact G2|split; [|exact RB]]|split; [eapply still_trans; eassumption|repeat split; congruence]].
      intros _. split; [intro X; congruence|]. intros _. rewrite B6, Er, B7, El. split; assumption.
Qed.
End Pass.
