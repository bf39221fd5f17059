(* Render passes and framebuffers: histories and lifetimes. *)
From Verif Require Import Spec_Target Proof_Layout Proof_Record Proof_Device Proof_Device2 Proof_Device3 Proof_Target.
From Coq Require Import PeanoNat Permutation.
Local Open Scope N_scope.

Definition live_of (d : rdata) : list N :=
  (if N.eqb (rd_framebuffer d) 0 then [] else [rd_framebuffer d]) ++ (if N.eqb (rd_renderPass d) 0 then [] else [rd_renderPass d]).
Definition live (t : target) : list N := flat_map live_of (tg_passes t).
Record lives (t : target) : Prop := {
  li_perm : Permutation (made (tg_log t)) (destroyed (tg_log t) ++ live t);
  li_nodup : NoDup (made (tg_log t));
  li_next : forall h, In h (made (tg_log t)) -> 0 < h < tg_nexth t;
  li_pos : 0 < tg_nexth t;
  li_alive : handles_alive (tg_log t) }.

Lemma made_app l1 l2 : made (l1 ++ l2) = made l1 ++ made l2. Proof. apply flat_map_app. Qed.
Lemma destroyed_app l1 l2 : destroyed (l1 ++ l2) = destroyed l1 ++ destroyed l2. Proof. apply flat_map_app. Qed.
Lemma alive_snoc l x : handles_alive l -> (forall h, In h (used_by x ++ destroyed_by x) -> In h (made l) /\ ~ In h (destroyed l)) -> handles_alive (l ++ [x]).
Proof.
  intros H Hx l1 y l2 h E Hh. destruct (@exists_last _ (y :: l2) ltac:(discriminate)) as (m & z & Em). rewrite Em in E.
  rewrite app_assoc in E. apply app_inj_tail in E. destruct E as [E <-].
  destruct m as [|y' m]; cbn in Em; injection Em as Ey Em.
  - subst. rewrite app_nil_r in *. apply Hx, Hh.
  - subst y'. apply (H l1 y m h); [exact E|exact Hh].
Qed.
Lemma live_parts (l : list rdata) : forall i x, (i < length l)%nat -> exists rest,
  Permutation (flat_map live_of l) (live_of (nth i l new_rdata) ++ rest) /\ Permutation (flat_map live_of (set_nth i x l)) (live_of x ++ rest).
Proof.
  induction l as [|y l IH]; intros i x H; [cbn in H; lia|]. destruct i as [|i].
  - exists (flat_map live_of l). split; reflexivity.
  - cbn [nth set_nth flat_map]. destruct (IH i x) as (rest & A & B); [cbn in H; lia|]. exists (live_of y ++ rest). split; rewrite ?A, ?B, !app_assoc.
    + apply Permutation_app_tail, Permutation_app_comm.
    + apply Permutation_app_tail, Permutation_app_comm.
Qed.
Lemma cleanup_destroys d : destroyed (cleanup_events d) = live_of d /\ made (cleanup_events d) = [].
Proof. unfold cleanup_events, live_of. destruct (N.eqb (rd_framebuffer d) 0), (N.eqb (rd_renderPass d) 0); split; reflexivity. Qed.
(* Destroying live handles one after the other. *)
Lemma alive_destroy log evs rest : handles_alive log -> NoDup (made log) -> Permutation (made log) (destroyed log ++ destroyed evs ++ rest) ->
  made evs = [] -> (forall x, In x evs -> used_by x = []) -> handles_alive (log ++ evs).
Proof.
  intros HA ND HP HM HU. revert log HA ND HP. induction evs as [|x evs IH]; intros log HA ND HP; [rewrite app_nil_r; exact HA|].
  replace (log ++ x :: evs) with ((log ++ [x]) ++ evs) by (rewrite <- app_assoc; reflexivity).
  cbn [made flat_map] in HM. apply app_eq_nil in HM. destruct HM as [Mx ME]. cbn [destroyed flat_map] in HP. fold (destroyed evs) in HP.
  assert (Md : made (log ++ [x]) = made log) by (rewrite made_app; cbn [made flat_map]; rewrite Mx, !app_nil_r; reflexivity).
  apply IH; [exact ME|intros y Hy; apply HU; right; exact Hy| | |].
  - apply alive_snoc; [exact HA|]. rewrite (HU x (or_introl eq_refl)). cbn [app]. intros h Hh. split.
    + apply (Permutation_in h (Permutation_sym HP)). apply in_or_app. right. apply in_or_app. left. apply in_or_app. left. exact Hh.
    + intro Hd. apply (Permutation_NoDup HP) in ND. rewrite <- app_assoc in ND. revert ND Hd Hh. generalize (destroyed log), (destroyed_by x). intros l1 l2 ND H1 H2.
      apply in_split in H1. destruct H1 as (u & w & ->). apply NoDup_remove_2 with (l := u) (l' := w ++ l2 ++ destroyed evs ++ rest) (a := h).
      * rewrite <- app_assoc in ND. exact ND.
      * apply in_or_app. right. apply in_or_app. right. apply in_or_app. left. exact H2.
  - rewrite Md. exact ND.
  - rewrite Md, destroyed_app. cbn [destroyed flat_map]. rewrite app_nil_r, <- !app_assoc. rewrite <- app_assoc in HP. exact HP.
Qed.
Lemma cleanup_uses d x : In x (cleanup_events d) -> used_by x = [].
Proof. unfold cleanup_events. destruct (N.eqb (rd_framebuffer d) 0), (N.eqb (rd_renderPass d) 0); cbn; intuition; subst; reflexivity. Qed.

Lemma new_lives size n : lives (new_target size n).
Proof.
  assert (L : live (new_target size n) = []) by (unfold live; cbn [new_target tg_passes]; induction n; [reflexivity|exact IHn]).
  constructor; cbn [new_target tg_log tg_nexth]; try (rewrite L); try constructor; try lia; intros; try contradiction.
  - exfalso. destruct l1; discriminate.
  - exfalso. destruct l1; discriminate.
Qed.

Lemma lives_init e g p i t c : lives t -> (i < length (tg_passes t))%nat -> 
  let t' := fst (fst (tg_initialise e g p i t c)) in lives t' /\ length (tg_passes t') = length (tg_passes t) /\ rd_renderPass (pass_data t' i) <> 0.
Proof.
  intros [LP LN LX L0 LA] Hi. unfold tg_initialise. destruct (andb _ _) eqn:E; cbn [fst].
  - split; [constructor; assumption|]. split; [reflexivity|]. apply andb_prop in E. destruct E as [E _]. apply andb_prop in E. destruct E as [E _]. apply negb_true_iff, N.eqb_neq in E. exact E.
  - cbn zeta. set (b := build_targets e g p i c). set (info := {| ri_descs := _ |}). set (d := pass_data t i).
    set (d' := {| rd_renderPass := tg_nexth t |}).
    destruct (live_parts (tg_passes t) i d' Hi) as (rest & A & B). fold (pass_data t i) in A. fold d in A. fold (live t) in A.
    destruct (cleanup_destroys d) as [Cd Cm].
    assert (Ld : live_of d' = [tg_nexth t]) by (unfold live_of; cbn; destruct (N.eqb_spec (tg_nexth t) 0); [lia|reflexivity]).
    split; [|split; [cbn [tg_passes]; apply set_nth_length|unfold pass_data; cbn [tg_passes]; rewrite nth_set_nth by exact Hi; cbn; lia]].
    assert (Md : made (tg_log t ++ cleanup_events d ++ [TRenderPass (tg_nexth t) info]) = made (tg_log t) ++ [tg_nexth t]) by (rewrite !made_app, Cm; reflexivity).
    constructor; cbn [tg_log tg_nexth]; rewrite ?Md.
    + rewrite !destroyed_app, Cd. cbn [destroyed flat_map destroyed_by app]. rewrite app_nil_r. unfold live at 1. cbn [tg_passes]. rewrite B, Ld, LP, A.
      rewrite <- !app_assoc. apply Permutation_app_head, Permutation_app_head. apply Permutation_sym, (Permutation_cons_append rest (tg_nexth t)).
    + apply (Permutation_NoDup (Permutation_cons_append (made (tg_log t)) (tg_nexth t))). constructor; [|exact LN]. intro H. apply LX in H. lia.
    + intros h Hh. apply in_app_or in Hh. destruct Hh as [Hh|[<-|[]]]; [apply LX in Hh|]; lia.
    + lia.
    + rewrite app_assoc. apply alive_snoc; [|intros h []].
      apply (alive_destroy _ _ rest); [exact LA|exact LN| |exact Cm|apply cleanup_uses].
      rewrite Cd, LP, A. reflexivity.
Qed.
Lemma lives_framebuffer i t : lives t -> (i < length (tg_passes t))%nat -> rd_renderPass (pass_data t i) <> 0 ->
  let t' := fst (tg_framebuffer i t) in let d' := pass_data t' i in
  lives t' /\ length (tg_passes t') = length (tg_passes t) /\ rd_framebuffer d' <> 0 /\ rd_renderPass d' = rd_renderPass (pass_data t i) /\ snd (tg_framebuffer i t) = rd_framebuffer d'.
Proof.
  intros [LP LN LX L0 LA] Hi Hr. unfold tg_framebuffer. set (d := pass_data t i) in *. destruct (N.eqb_spec (rd_framebuffer d) 0) as [E|E]; cbn [fst snd].
  2:{ split; [constructor; assumption|]. repeat split. exact E. }
  cbn zeta. set (d' := {| rd_renderPass := rd_renderPass d |}). set (ev := TFramebuffer _ _ _ _ _ _).
  destruct (live_parts (tg_passes t) i d' Hi) as (rest & A & B). fold (pass_data t i) in A. fold d in A. fold (live t) in A.
  assert (Ld : live_of d' = [tg_nexth t; rd_renderPass d] /\ live_of d = [rd_renderPass d]).
  { unfold live_of. cbn. apply N.eqb_neq in Hr. rewrite Hr, E. destruct (N.eqb_spec (tg_nexth t) 0); [lia|]. split; reflexivity. }
  destruct Ld as [Ld Ld0].
  assert (Pd : nth i (set_nth i d' (tg_passes t)) new_rdata = d') by (apply nth_set_nth, Hi).
  split; [|split; [apply set_nth_length|unfold pass_data; cbn [tg_passes]; rewrite Pd; cbn; repeat split; lia]].
  assert (Md : made (tg_log t ++ [ev]) = made (tg_log t) ++ [tg_nexth t]) by (rewrite made_app; reflexivity).
  constructor; cbn [tg_log tg_nexth]; rewrite ?Md.
  - rewrite destroyed_app. cbn [destroyed flat_map destroyed_by ev]. rewrite app_nil_r. unfold live at 1. cbn [tg_passes]. rewrite B, Ld, LP, A, Ld0.
    rewrite <- !app_assoc. apply Permutation_app_head. cbn [app]. apply Permutation_sym. apply (Permutation_cons_append (rd_renderPass d :: rest)).
  - apply (Permutation_NoDup (Permutation_cons_append (made (tg_log t)) (tg_nexth t))). constructor; [|exact LN]. intro H. apply LX in H. lia.
  - intros h Hh. apply in_app_or in Hh. destruct Hh as [Hh|[<-|[]]]; [apply LX in Hh|]; lia.
  - lia.
  - apply alive_snoc; [exact LA|]. intros h [<-|[]].
    assert (Q : In (rd_renderPass d) (live t)) by (apply (Permutation_in _ (Permutation_sym A)); rewrite Ld0; left; reflexivity).
    split; [apply (Permutation_in _ (Permutation_sym LP)), in_or_app; right; exact Q|].
    intro Hd. apply (Permutation_NoDup LP) in LN. apply in_split in Hd. destruct Hd as (u & w & Ew). rewrite Ew, <- app_assoc in LN. cbn [app] in LN.
    apply NoDup_remove_2 in LN. apply LN. apply in_or_app. right. apply in_or_app. right. exact Q.
Qed.
Lemma lives_emit t evs : lives t -> made evs = [] -> destroyed evs = [] -> handles_alive (tg_log t ++ evs) -> lives (tg_emit t evs).
Proof.
  intros [LP LN LX L0 LA] Em Ed Ha. constructor; cbn [tg_emit tg_log tg_nexth]; rewrite ?made_app, ?destroyed_app, ?Em, ?Ed, ?app_nil_r; assumption.
Qed.
Lemma lives_use t u : lives t -> (rp_index (us_pass u) < length (tg_passes t))%nat -> lives (use_target t u) /\ length (tg_passes (use_target t u)) = length (tg_passes t).
Proof.
  intros L Hi. unfold use_target, tg_record. set (i := rp_index (us_pass u)) in *.
  destruct (lives_init (us_env u) (us_graph u) (us_pass u) i t (us_ctx u) L Hi) as (L1 & N1 & R1).
  destruct (tg_initialise _ _ _ _ _ _) as [[t1 c1] m]. cbn [fst] in L1, N1, R1.
  destruct (lives_framebuffer i t1 L1 ltac:(rewrite N1; exact Hi) R1) as (L2 & N2 & F2 & R2 & E2).
  unfold tg_begin. destruct (tg_framebuffer i t1) as [t2 fb]. cbn [fst snd] in L2, N2, F2, R2, E2. cbv beta iota zeta. subst fb.
  set (ev := TBegin _ _ _ _). 
  assert (L3 : lives (tg_emit t2 [ev])).
  { apply lives_emit; [exact L2|reflexivity|reflexivity|]. pose proof L2 as [LP LN LX L0 LA]. apply alive_snoc; [exact LA|].
    intros h Hh. cbn [used_by destroyed_by ev app] in Hh.
    assert (Q : In h (live t2)).
    { destruct (live_parts (tg_passes t2) i new_rdata ltac:(rewrite N2, N1; exact Hi)) as (rest & A & _). apply (Permutation_in _ (Permutation_sym A)). fold (pass_data t2 i).
      apply in_or_app. left. unfold live_of. apply N.eqb_neq in F2. rewrite F2, R2. apply N.eqb_neq in R1. rewrite R1. rewrite R2 in Hh. cbn in Hh |- *. intuition. }
    split; [apply (Permutation_in _ (Permutation_sym LP)), in_or_app; right; exact Q|].
    intro Hd. apply (Permutation_NoDup LP) in LN. apply in_split in Hd. destruct Hd as (u' & w & Ew). rewrite Ew, <- app_assoc in LN. cbn [app] in LN.
    apply NoDup_remove_2 in LN. apply LN. apply in_or_app. right. apply in_or_app. right. exact Q. }
  destruct (us_body u _ i) as [c2 l2]. unfold tg_end. cbn [fst].
  split; [|cbn [tg_emit tg_passes]; congruence].
  apply lives_emit; [exact L3|reflexivity|reflexivity|]. apply alive_snoc; [apply L3|intros h []].
Qed.
Lemma lives_uses l : forall t, lives t -> (forall u, In u l -> (rp_index (us_pass u) < length (tg_passes t))%nat) -> lives (fold_left use_target l t) /\ length (tg_passes (fold_left use_target l t)) = length (tg_passes t).
Proof.
  induction l as [|u l IH]; intros t L H; [split; [exact L|reflexivity]|]. cbn [fold_left]. destruct (lives_use t u L (H u (or_introl eq_refl))) as [L1 N1].
  destruct (IH _ L1) as [A B]; [intros x Hx; rewrite N1; apply H; right; exact Hx|]. split; [exact A|congruence].
Qed.
Lemma destroy_all t : lives t -> let log := tg_log (tg_destroy t) in
  Permutation (destroyed log) (made log) /\ NoDup (made log) /\ handles_alive log.
Proof.
  intros [LP LN LX L0 LA]. unfold tg_destroy. cbn [tg_emit tg_log]. set (evs := flat_map cleanup_events (tg_passes t)).
  assert (E : destroyed evs = live t /\ made evs = [] /\ forall x, In x evs -> used_by x = []).
  { unfold evs, live. induction (tg_passes t) as [|d l IH]; [repeat split; intros x []|]. cbn [flat_map]. destruct (cleanup_destroys d) as [A B]. destruct IH as (I1 & I2 & I3).
    rewrite destroyed_app, made_app, A, B, I1, I2. repeat split. intros x Hx. apply in_app_or in Hx. destruct Hx; [eapply cleanup_uses; eassumption|apply I3; assumption]. }
  destruct E as (E1 & E2 & E3). rewrite destroyed_app, made_app, E1, E2, app_nil_r. split; [symmetry; exact LP|]. split; [exact LN|].
  apply (alive_destroy _ _ []); [exact LA|exact LN|rewrite E1, app_nil_r; exact LP|exact E2|exact E3].
Qed.
