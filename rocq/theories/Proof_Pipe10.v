(* The descriptor sets bound by the passes. *)
From Verif Require Export Proof_Pipe9.
From Coq Require Import Lia ZifyBool ZifyNat ZifyN PeanoNat.
Local Open Scope N_scope.

(* the sets of a pass were allocated from its pool, with its layout, and written for their index *)
Definition SI (a c : list attach) (x : driver * ppass) : Prop :=
  pp_images (snd x) = a /\ pp_buffers (snd x) = c /\
  (ho_layout (pp_holder (snd x)) = 0 -> forall j, nth j (ho_sets (pp_holder (snd x))) 0 = 0) /\
  forall j, let s := nth j (ho_sets (pp_holder (snd x))) 0 in s <> 0 ->
    In (PAllocated (ho_pool (pp_holder (snd x))) (ho_setLayout (pp_holder (snd x))) s) (dr_log (fst x)) /\
    In (PUpdated s (set_writes a c j)) (dr_log (fst x)).
Lemma SI_same a c d p d' p' es : SI a c (d, p) -> dr_log d' = dr_log d ++ es -> pp_images p' = pp_images p -> pp_buffers p' = pp_buffers p ->
  ho_layout (pp_holder p') = ho_layout (pp_holder p) -> ho_sets (pp_holder p') = ho_sets (pp_holder p) ->
  ho_pool (pp_holder p') = ho_pool (pp_holder p) -> ho_setLayout (pp_holder p') = ho_setLayout (pp_holder p) -> SI a c (d', p').
Proof.
  intros (H1 & H2 & H3 & H4) E1 E2 E3 E4 E5 E6 E7. unfold SI. cbn [fst snd] in *. rewrite E1, E2, E3, E4, E5, E6, E7.
  split; [exact H1|]. split; [exact H2|]. split; [exact H3|]. intros j Hs. destruct (H4 j Hs). split; apply in_or_app; left; assumption.
Qed.
Lemma SI_closed a c : closed True (SI a c).
Proof.
  constructor.
  - intros nf i [d p] H. cbn. eapply (SI_same a c d p); [exact H| | | | | | |]; reflexivity.
  - intros i [d p] H. unfold on_holder, ho_reset. destruct (N.eqb _ 0); [|]; eapply (SI_same a c d p _ _ []); try exact H; try reflexivity; rewrite app_nil_r; reflexivity.
  - intros [d p] H. unfold on_holder, ho_initialise. cbn [snd]. destruct (N.eqb_spec (ho_layout (pp_holder p)) 0) as [E|E].
    + destruct H as (H1 & H2 & H3 & H4). unfold SI. cbn. cbn [fst snd] in *. split; [exact H1|]. split; [exact H2|]. split; [intro X; lia|].
      intros j Hs. exfalso. apply Hs, (H3 E).
    + eapply (SI_same a c d p _ _ []); try exact H; try reflexivity. rewrite app_nil_r; reflexivity.
  - intros _ [d p] (H1 & H2 & H3 & H4). unfold SI. cbn. cbn [fst snd] in *. split; [exact H1|]. split; [exact H2|].
    assert (Z : forall j, nth j (map (fun _ : N => 0) (ho_sets (pp_holder p))) 0 = 0).
    { generalize (ho_sets (pp_holder p)). intro l. induction l as [|x l IH]; intros [|j]; cbn; auto. }
    split; [intros _; exact Z|]. intros j Hs. exfalso. apply Hs, Z.
  - intros d p rp H. exact H.
  - intros d p i H. exact H.
  - intros d p i pc H. destruct pc; exact H.
Qed.
Lemma SI_set a c i d p : SI a c (d, p) -> has_layout (d, p) -> (i < length (ho_sets (pp_holder p)))%nat -> 0 < dr_next d ->
  SI a c (on_holder (ho_set a c i) (d, p)) /\ nth i (ho_sets (pp_holder (snd (on_holder (ho_set a c i) (d, p))))) 0 <> 0.
Proof.
  intros H L Hi Hn. unfold on_holder, ho_set. destruct (N.eqb_spec (nth i (ho_sets (pp_holder p)) 0) 0) as [E|E].
  2:{ split; [|exact E]. eapply (SI_same a c d p _ _ []); try exact H; try reflexivity. rewrite app_nil_r; reflexivity. }
  destruct H as (H1 & H2 & H3 & H4). unfold fresh, SI. cbn [fst snd with_holder pp_holder with_sets ho_sets ho_pool ho_setLayout ho_layout pp_images pp_buffers dr_log] in *.
  apply Nat.ltb_lt in Hi. split.
  2:{ rewrite nth_set_nth, Nat.eqb_refl, Hi. cbn. lia. }
  split; [exact H1|]. split; [exact H2|]. split; [intro X; exfalso; apply L; exact X|].
  intros j. rewrite nth_set_nth, Hi, andb_true_r. destruct (Nat.eqb_spec i j) as [Ej|Ej].
  - subst j. intros _. split; apply in_or_app; right; cbn; auto.
  - intro Hs. destruct (H4 j Hs). split; apply in_or_app; left; assumption.
Qed.
Definition WS (w : pworld) : Prop := forall id p, mfind id (pw_passes w) = Some p -> SI (pp_images p) (pp_buffers p) (pw_driver w, p) /\ LP (pw_driver w, p).
Lemma good_RD d p : pass_good d p -> LP (d, p) -> RD p.
Proof.
  intros (G & F & _) L. split; [|exact L]. unfold flagged. intro Hf. destruct (pp_kind p) eqn:K.
  - destruct Hf as [i Hi]. apply (g_init _ G K i Hi).
  - apply (proj2 (F ltac:(congruence)) Hf).
  - apply (proj2 (F ltac:(congruence)) Hf).
Qed.
Lemma WS_ext w d' p id es (m : nmap ppass) : WS w -> mfind id (pw_passes w) = Some p -> dr_log d' = dr_log (pw_driver w) ++ es ->
  SI (pp_images p) (pp_buffers p) (d', p) /\ LP (d', p).
Proof.
  intros H E Es. destruct (H id p E) as [A B]. split; [|exact B]. apply (SI_same _ _ (pw_driver w) p d' p es A Es); reflexivity.
Qed.
Lemma static_pre i rp d p : pp_images (snd (pre_record i rp d p)) = pp_images p /\ pp_buffers (snd (pre_record i rp d p)) = pp_buffers p /\
  length (ho_sets (pp_holder (snd (pre_record i rp d p)))) = length (ho_sets (pp_holder p)).
Proof. apply (cl_pre _ _ (static_closed (pp_images p) (pp_buffers p) (length (ho_sets (pp_holder p)))) i rp d p (fun _ _ => I)). auto. Qed.
Lemma WS_record w id i rp made : WG w made -> WS w -> record_sane w id i rp ->
  WS (fst (do_record w id i rp)) /\
  forall p', mfind id (pw_passes (fst (do_record w id i rp))) = Some p' -> nth i (ho_sets (pp_holder p')) 0 <> 0.
Proof.
  intros G H (S1 & S2 & S3). unfold do_record. destruct (mfind id (pw_passes w)) as [p|] eqn:E.
  2:{ split; [exact H|]. intros p' X. cbn [fst] in X. congruence. }
  destruct (record_ext i rp (pw_driver w) p) as [es Es]. rewrite record_pre in *.
  destruct (H id p E) as [A L]. destruct (proj2 G id p E) as [PG _].
  pose proof (hl_pre i rp (pw_driver w) p (good_RD _ _ PG L) (S2 p eq_refl)) as HL.
  pose proof (cl_pre _ _ LP_closed i rp (pw_driver w) p (fun _ _ => I) L) as L1.
  pose proof (cl_pre _ _ (SI_closed _ _) i rp (pw_driver w) p (fun _ _ => I) A) as A1.
  pose proof (cl_pre _ _ next_closed i rp (pw_driver w) p (fun _ _ => I) (proj1 (proj1 G))) as N1.
  destruct (static_pre i rp (pw_driver w) p) as (T1 & T2 & T3).
  destruct (pre_record i rp (pw_driver w) p) as [d1 p1]. cbn [fst snd] in *.
  destruct (SI_set _ _ i d1 p1 A1 HL ltac:(rewrite T3; apply S1; exact E) N1) as [A2 Z].
  assert (L2 : LP (on_holder (ho_set (pp_images p) (pp_buffers p) i) (d1, p1))) by (unfold LP, on_holder, ho_set; destruct (N.eqb _ 0); exact L1).
  assert (U1 : pp_images (snd (on_holder (ho_set (pp_images p) (pp_buffers p) i) (d1, p1))) = pp_images p) by (unfold on_holder; destruct (ho_set _ _ i d1 _); exact T1).
  assert (U2 : pp_buffers (snd (on_holder (ho_set (pp_images p) (pp_buffers p) i) (d1, p1))) = pp_buffers p) by (unfold on_holder; destruct (ho_set _ _ i d1 _); exact T2).
  destruct (on_holder (ho_set (pp_images p) (pp_buffers p) i) (d1, p1)) as [d2 p2]. cbn [fst snd] in *. split.
  - intros q p' X. cbn [pw_passes pw_driver] in *. rewrite mfind_mput in X. destruct (N.eqb_spec q id) as [Eq|Eq].
    + injection X as <-. rewrite U1, U2. split; assumption.
    + apply (WS_ext w d2 p' q es [] H X Es).
  - intros p' X. cbn [pw_passes] in X. rewrite mfind_mput_same in X. injection X as <-. exact Z.
Qed.
Lemma WS_records l : forall w made, WG w made -> WS w -> records_sane w l -> WS (fst (do_records w l)).
Proof.
  induction l as [|[[id i] rp] l IH]; intros w made G H S; [exact H|]. destruct S as [S1 S2]. destruct (WG_record w id i rp made G S1) as (A & _ & _).
  destruct (WS_record w id i rp made G H S1) as [B _]. cbn [do_records]. destruct (do_record w id i rp) as [w1 b1]. cbn [fst] in *.
  specialize (IH w1 _ A B S2). destruct (do_records w1 l). exact IH.
Qed.
Lemma WS_driver w f es : dr_log (f (pw_driver w)) = dr_log (pw_driver w) ++ es -> WS w -> WS (on_driver f w).
Proof. intros Es H id p X. apply (WS_ext w _ p id es [] H X Es). Qed.
Lemma WS_step w o made : WG w made -> WS w -> op_sane w o -> WS (pstep w o).
Proof.
  intros G H S. destruct o as [id g kd n m a c cr|id i rp|id i pc|id|g l|g]; cbn [pstep].
  - destruct (mfind id (pw_passes w)) as [p0|] eqn:E; [exact H|]. intros q p. cbn [pw_passes pw_driver]. rewrite mfind_mput. destruct (N.eqb_spec q id) as [Eq|Eq]; [|apply H].
    intro X. injection X as <-. split; [|intro X; cbn in X; contradiction]. unfold SI. cbn. split; [reflexivity|]. split; [reflexivity|]. split; [intros _ j; apply nth_repeat|].
    intros j X. exfalso. apply X, nth_repeat.
  - apply (WS_record w id i rp made G H S).
  - destruct (mfind id (pw_passes w)) as [p|] eqn:E; [|exact H]. destruct (reset_ext i pc (pw_driver w) p) as [es Es]. destruct (H id p E) as [A L].
    pose proof (cl_passreset _ _ LP_closed i pc (pw_driver w) p L) as L1. pose proof (cl_passreset _ _ (SI_closed _ _) i pc (pw_driver w) p A) as A1.
    pose proof A1 as (T1 & T2 & _). destruct (pass_reset i pc (pw_driver w) p) as [d' p']. cbn [fst snd] in *. intros q q'. cbn [pw_passes pw_driver]. rewrite mfind_mput.
    destruct (N.eqb_spec q id) as [Eq|Eq]; [|intro X; apply (WS_ext w d' q' q es [] H X Es)]. intro X. injection X as <-. rewrite T1, T2. split; assumption.
  - destruct (mfind id (pw_passes w)) as [p|] eqn:E; [|exact H]. intros q p'. cbn [pw_passes pw_driver]. rewrite merase_find. destruct (N.eqb q id); [discriminate|]. intro X.
    eapply (WS_ext w _ p' q _ [] H X). reflexivity.
  - unfold do_run. set (w0 := on_driver _ w). assert (H0 : WS w0) by (apply (WS_driver w _ [PWaited g]); [reflexivity|exact H]).
    assert (G0 : WG w0 made) by (apply (WG_driver w _ [PWaited g]); [reflexivity|reflexivity|reflexivity|exact G]).
    pose proof (WS_records l w0 made G0 H0 S) as A. destruct (do_records w0 l) as [w1 bound]. cbn [fst] in *.
    eapply (WS_driver w1 _ (map (PDestroyed KPipeline) (dr_queue (pw_driver w1)) ++ [PSubmitted g bound])); [cbn; rewrite <- app_assoc; reflexivity|exact A].
  - apply (WS_driver w _ [PWaited g]); [reflexivity|exact H].
Qed.
Lemma WS_run ops : forall w made, WG w made -> WS w -> sane w ops -> Forall op_creator_ok ops -> WS (prun w ops).
Proof.
  induction ops as [|o r IH]; intros w made G H S C; [exact H|]. destruct S as [S1 S2]. inversion C as [|? ? C1 C2]; subst.
  destruct (WG_step w o made G S1 C1) as [A _]. exact (IH (pstep w o) _ A (WS_step w o made G H S1) S2 C2).
Qed.
Lemma sane_app l1 : forall w l2, sane w (l1 ++ l2) <-> sane w l1 /\ sane (prun w l1) l2.
Proof. induction l1 as [|o l1 IH]; intros w l2; cbn [app sane prun fold_left]; [tauto|]. rewrite IH. unfold prun. tauto. Qed.
Lemma prun_app w a b : prun w (a ++ b) = prun (prun w a) b. Proof. apply fold_left_app. Qed.

Lemma PI_alive k r (x : driver * ppass) h : PI true k r x -> In h (owned k (pp_holder (snd x))) -> h <> 0 -> living k (dr_log (fst x)) h.
Proof.
  intros [(_ & l & L1 & L2 & L3 & L4) _] Hi Hn. exists l. split; [exact L1|]. specialize (L4 h Hn). cbn [rel] in L4.
  unfold plus, own in L4. apply (count_occ_In N.eq_dec) in Hi. apply (count_occ_In N.eq_dec). lia.
Qed.
(* Everything known of what the last recording of a history bound. *)
Lemma last_record ops id i rp h l s : sane new_pworld (ops ++ [ORecord id i rp]) -> Forall op_creator_ok ops -> binds ops id i rp = Some (h, l, s) ->
  exists p r, mfind id (pw_passes (prun new_pworld (ops ++ [ORecord id i rp]))) = Some p /\
    (h, l, s) = ho_recordInto i (pp_holder p) /\ h <> 0 /\ l <> 0 /\ s <> 0 /\
    made_as (calls (ops ++ [ORecord id i rp])) h = Some (getProgram p i, r, l) /\ (pp_kind p = Compute -> r = 0) /\
    (pp_kind p <> Compute -> length (ho_sets (pp_holder p)) = 1%nat -> last_made id (ops ++ [ORecord id i rp]) = Some r) /\
    living KLayout (calls (ops ++ [ORecord id i rp])) l /\ living KPool (calls (ops ++ [ORecord id i rp])) (ho_pool (pp_holder p)) /\
    In (PAllocated (ho_pool (pp_holder p)) (ho_setLayout (pp_holder p)) s) (calls (ops ++ [ORecord id i rp])) /\
    In (PUpdated s (set_writes (pp_images p) (pp_buffers p) i)) (calls (ops ++ [ORecord id i rp])).
Proof.
  intros S C B. unfold binds in B. destruct (mfind id (pw_passes (prun new_pworld (ops ++ [ORecord id i rp])))) as [p|] eqn:E; [|discriminate]. cbn in B. injection B as B1 B2 B3.
  pose proof S as S0. apply sane_app in S0. destruct S0 as [S1 [S2 _]]. cbn [op_sane] in S2.
  pose proof (WG_run ops new_pworld _ WG_new S1 C) as G.
  pose proof (WS_run ops new_pworld _ WG_new ltac:(intros ? ? X; discriminate X) S1 C) as W.
  destruct (WG_record _ id i rp _ G S2) as (_ & _ & Gb). destruct (WS_record _ id i rp _ G W S2) as [W' Z].
  pose proof (WI_run true KLayout (ops ++ [ORecord id i rp]) new_pworld (WI_new _ _) ltac:(discriminate)) as IL.
  pose proof (WI_run true KPool (ops ++ [ORecord id i rp]) new_pworld (WI_new _ _) ltac:(discriminate)) as IP.
  destruct (WI_pass _ _ _ id p IL E) as [PL _]. destruct (WI_pass _ _ _ id p IP E) as [PP _].
  unfold calls, last_made. rewrite (fold_left_app _ ops). cbn [fold_left made_by].
  rewrite prun_app in *. cbn [prun fold_left pstep] in *. fold (prun new_pworld ops) in *.
  assert (Hh : In h (snd (do_record (prun new_pworld ops) id i rp))).
  { clear - E B1. unfold do_record in *. destruct (mfind id (pw_passes (prun new_pworld ops))) as [p0|] eqn:E0.
    - unfold pass_record in *. destruct (on_holder _ _) as [d2 p2]. cbn in *. rewrite mfind_mput_same in E. injection E as ->. left. exact B1.
    - cbn in E. congruence. }
  destruct (Gb h Hh) as (p1 & r & l' & X1 & X2 & X3 & X4 & X5 & X6 & X7). rewrite E in X1. injection X1 as <-. subst l'.
  destruct (W' id p E) as [(_ & _ & _ & Q) LP1]. specialize (Z p E). cbn [fst snd] in Q. destruct (Q i Z) as [Q1 Q2].
  exists p, r. split; [reflexivity|]. split; [unfold ho_recordInto; congruence|]. split; [exact X2|]. split; [congruence|]. split; [congruence|].
  split; [rewrite <- B2; exact X3|]. split; [exact X6|]. split; [exact X7|].
  split; [apply (PI_alive KLayout _ _ l PL); [left; exact B2|congruence]|].
  split; [apply (PI_alive KPool _ _ _ PP); [left; reflexivity|apply LP1; cbn [snd]; congruence]|].
  rewrite <- B3. split; assumption.
Qed.
(* The pass made by [ONew] at the end of a history. *)
Lemma pass_of pre post id g k n m a c cr i rp h l s :
  mfind id (pw_passes (prun new_pworld pre)) = None -> ~ In (ODestroy id) post ->
  sane new_pworld ((pre ++ ONew id g k n m a c cr :: post) ++ [ORecord id i rp]) -> Forall op_creator_ok (pre ++ ONew id g k n m a c cr :: post) ->
  binds (pre ++ ONew id g k n m a c cr :: post) id i rp = Some (h, l, s) ->
  exists p, mfind id (pw_passes (prun new_pworld ((pre ++ ONew id g k n m a c cr :: post) ++ [ORecord id i rp]))) = Some p /\
    pp_kind p = k /\ pp_images p = a /\ pp_buffers p = c /\ length (ho_sets (pp_holder p)) = m /\
    getProgram p i = match cr with Some f => f i | None => last_given id n i post end.
Proof.
  intros E0 D S C B. rewrite <- app_assoc in S. cbn [app] in S. apply sane_app in S. destruct S as [S0 [Sn S1]]. rewrite <- app_assoc. cbn [app].
  apply Forall_app in C. destruct C as [C0 C]. inversion C as [|? ? Cn C1]; subst.
  pose proof (WG_run pre new_pworld _ WG_new S0 C0) as G0. destruct (WG_step _ _ _ G0 Sn Cn) as [G1 _]. rewrite prun_app.
  set (o := ONew id g k n m a c cr) in *.
  change (prun (prun new_pworld pre) (o :: post ++ [ORecord id i rp])) with (prun (pstep (prun new_pworld pre) o) (post ++ [ORecord id i rp])).
  assert (E1 : mfind id (pw_passes (pstep (prun new_pworld pre) o)) = Some (new_ppass g k n m a c cr)).
  { unfold o. cbn [pstep]. rewrite E0. cbn [pw_passes]. apply mfind_mput_same. }
  assert (Z : (i < m)%nat).
  { apply sane_app in S1. destruct S1 as [S1' [(Sr & _) _]].
    destruct (pass_history post _ _ id _ G1 S1' C1 D E1) as (q & F1 & F2 & _). specialize (Sr q F1). rewrite (sets_still _ _ F2) in Sr. cbn in Sr. rewrite repeat_length in Sr. exact Sr. }
  assert (C2 : Forall op_creator_ok (post ++ [ORecord id i rp])) by (apply Forall_app; split; [exact C1|]; repeat constructor).
  assert (D2 : ~ In (ODestroy id) (post ++ [ORecord id i rp])) by (intro X; apply in_app_or in X; destruct X as [X|[X|[]]]; [apply D, X|discriminate]).
  destruct (pass_history (post ++ [ORecord id i rp]) _ _ id _ G1 S1 C2 D2 E1) as (p & F1 & F2 & F3 & F4).
  exists p. split; [exact F1|]. pose proof F2 as (_ & K1 & K2 & K3 & K4). split; [exact K1|].
  assert (L : length (ho_sets (pp_holder p)) = m). { rewrite (sets_still _ _ F2). cbn. apply repeat_length. }
  split; [exact K2|]. split; [exact K3|]. split; [exact L|]. unfold getProgram. rewrite F3. cbn [new_ppass pp_creator]. destruct cr as [f|]; [reflexivity|].
  destruct Sn as [Sn Sm]. assert (Sl : (slot_of (pp_holder (new_ppass g k n m a c None)) i < n)%nat). { unfold slot_of. cbn. destruct (Nat.eqb_spec n 1); lia. }
  rewrite F4 by (cbn; rewrite map_length, seq_length; exact Sl). unfold last_given. cbn [new_ppass pp_holder new_holder ho_programs pp_code]. rewrite fold_left_app. cbn [fold_left given_by].
  f_equal. rewrite (nth_indep _ 0 (N.of_nat 0)) by (rewrite map_length, seq_length; exact Sl). rewrite map_nth, seq_nth by exact Sl. unfold slot_of. cbn.
  destruct (Nat.eqb_spec n 1); reflexivity.
Qed.
