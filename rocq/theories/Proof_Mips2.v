(* Proofs about the synchronisation of the mipmaps generation. *)
From Verif Require Import Spec_Mips Proof_Layout Proof_Record Proof_Mips.
From Coq Require Import ZifyBool ZifyNat ZifyN FinFun.
Local Open Scope N_scope.

Lemma sync_app im l1 : forall z l2, synchronise_all im z (l1 ++ l2) = match synchronise_all im z l1 with Some z' => synchronise_all im z' l2 | None => None end.
Proof. induction l1 as [|c l1 IH]; intros z l2; cbn; [reflexivity|]. destruct (synchronise im z c); [apply IH|reflexivity]. Qed.

Definition zsame (z z' : hazard) (layer mip : N) : Prop :=
  z_access z' layer mip = z_access z layer mip /\ z_stage z' layer mip = z_stage z layer mip /\ z_pending z' layer mip = z_pending z layer mip.
Definition covered (p : last_transfer) (k : lstate) : Prop :=
  match p with
  | Idle => True
  | ReadBy => has (ps_stage (ls_state k)) S_TRANSFER = true
  | WrittenBy => has (ps_stage (ls_state k)) S_TRANSFER = true /\ has (ps_access (ls_state k)) A_TRANSFER_WRITE = true
  end.
Lemma has_refl a : has a a = true.
Proof. unfold has. rewrite N.land_diag. apply N.eqb_refl. Qed.
Lemma has_trans a b c : has a b = true -> has b c = true -> has a c = true.
Proof. unfold has. rewrite !N.eqb_eq. intros E1 E2. rewrite <- E2 at 1. rewrite N.land_assoc, E1. exact E2. Qed.
Lemma level_at sep f layer mip l m : in_rangeb (adaptRange sep f (level_range f layer mip)) l m = andb (N.eqb l layer) (N.eqb m mip).
Proof.
  assert (A : in_rangeb (adaptRange sep f (level_range f layer mip)) l m = true <-> andb (N.eqb l layer) (N.eqb m mip) = true).
  { rewrite in_rangeb_spec, adapt_in_range, in_level, andb_true_iff, !N.eqb_eq. reflexivity. }
  destruct (in_rangeb _ l m), (andb (N.eqb l layer) _); try reflexivity; [symmetry|]; apply A; reflexivity.
Qed.
Lemma level_at' f layer mip l m : in_rangeb (level_range f layer mip) l m = andb (N.eqb l layer) (N.eqb m mip).
Proof.
  assert (A : in_rangeb (level_range f layer mip) l m = true <-> andb (N.eqb l layer) (N.eqb m mip) = true).
  { rewrite in_rangeb_spec, in_level, andb_true_iff, !N.eqb_eq. reflexivity. }
  destruct (in_rangeb _ l m), (andb (N.eqb l layer) _); try reflexivity; [symmetry|]; apply A; reflexivity.
Qed.
Lemma K_known c im vt layer mip i : ls_layout (K c im vt layer mip L_UNDEFINED) <> L_UNDEFINED -> K c im vt layer mip i = K c im vt layer mip L_UNDEFINED.
Proof.
  unfold K, known_state. destruct (N.eqb_spec (ls_layout (rc_getLayoutState c im vt (LR im layer mip))) L_UNDEFINED) as [E|E]; [|reflexivity].
  intro X. exfalso. apply X. reflexivity.
Qed.

(* linear arithmetic, without the hypotheses on the states *)
Ltac ar := repeat match goal with
  | H : context [has _ _] |- _ => clear H | H : context [z_pending _ _ _] |- _ => clear H | H : context [K _ _ _ _ _ _] |- _ => clear H
  | H : context [zsame _ _ _ _] |- _ => clear H | H : context [synchronise_all _ _ _] |- _ => clear H | H : context [ls_layout _] |- _ => clear H end; lia.

Lemma hb e im vt layer mip initial wanted c z :
  bounds im vt layer -> mip < 32 -> ls_layout wanted <> L_UNDEFINED -> covered (z_pending z layer mip) (K c im vt layer mip initial) ->
  exists c' l z', level_barrier e im vt layer mip initial wanted c = (c', l) /\ synchronise_all im z l = Some z' /\
    (forall l m, ~ (l = layer /\ m = mip) -> zsame z z' l m) /\
    (forall layer' mip' i, layer' < 2 ^ 32 -> mip' < 2 ^ 31 -> mip <> mip' \/ (vt <> VT_3D /\ layer <> layer') ->
        K c' im vt layer' mip' i = K c im vt layer' mip' i) /\
    ((z_access z' layer mip = ps_access (ls_state wanted) /\ z_stage z' layer mip = ps_stage (ls_state wanted) /\ z_pending z' layer mip = Idle /\
      (forall i, K c' im vt layer mip i = wanted \/ K c' im vt layer mip i = makeLayoutState i)) \/
     (c' = c /\ z' = z /\ ls_layout (K c im vt layer mip initial) = ls_layout wanted /\
      ps_stage (ls_state (K c im vt layer mip initial)) = ps_stage (ls_state wanted))).
Proof.
  intros B Hm Hw Hc. destruct B as [Bd Bl Bn].
  unfold level_barrier. destruct (barrier_cases (e_separate e) c im vt (LR im layer mip) initial wanted false) as [[Hn E]|[Hn E]]; rewrite E; clear E.
  - do 3 eexists. split; [reflexivity|]. split; [|split; [|split]].
    + cbn [synchronise_all synchronise]. rewrite N.eqb_refl. cbn [andb].
      match goal with |- context [if ?b then _ else _] => assert (F : b = true) end; [|rewrite F; reflexivity].
      apply forallb_forall. intros [l m] Hi. apply in_subresources in Hi. rewrite adapt_in_range, in_level in Hi. destruct Hi as [-> ->].
      cbn [fst snd]. unfold covered, K in Hc. destruct (z_pending z layer mip); [reflexivity|exact Hc|]. apply andb_true_intro. exact Hc.
    + intros l m Hne. unfold zsame. cbn [z_access z_stage z_pending]. rewrite !level_at.
      replace (andb (N.eqb l layer) (N.eqb m mip)) with false; [auto|]. symmetry. apply not_true_iff_false. rewrite andb_true_iff, !N.eqb_eq. exact Hne.
    + intros. apply K_other; try assumption; ar.
    + left. cbn [z_access z_stage z_pending]. rewrite !level_at, !N.eqb_refl. cbn [andb]. split; [reflexivity|]. split; [reflexivity|]. split; [reflexivity|].
      intro i. destruct (N.eq_dec vt VT_3D) as [E3|E3].
      * destruct (N.eq_dec (N.shiftr (i_depth im) mip) 0) as [Z|Z].
        { right. rewrite K_untracked; [reflexivity|]. intro X. specialize (X E3). ar. }
        left. rewrite K_same; [reflexivity|ar|ar|ar|intro; ar|assumption].
      * left. rewrite K_same; [reflexivity|ar|ar|ar|intro; contradiction|assumption].
  - exists c, [], z. split; [reflexivity|]. split; [reflexivity|]. split; [intros; unfold zsame; auto|]. split; [reflexivity|]. right.
    split; [reflexivity|]. split; [reflexivity|]. fold (K c im vt layer mip initial) in Hn. unfold needs_barrier in Hn. split.
    + destruct (N.eq_dec (ls_layout (K c im vt layer mip initial)) (ls_layout wanted)) as [|X]; [assumption|]. exfalso. apply Hn. right. split; [left; exact X|assumption].
    + destruct (N.eq_dec (ps_stage (ls_state (K c im vt layer mip initial))) (ps_stage (ls_state wanted))) as [|X]; [assumption|]. exfalso. apply Hn. right. split; [right; exact X|assumption].
Qed.

Lemma blit_sync im layer mip z : 1 <= mip ->
  has (z_access z layer (mip - 1)) A_TRANSFER_READ = true -> has (z_stage z layer (mip - 1)) S_TRANSFER = true -> z_pending z layer (mip - 1) <> WrittenBy ->
  has (z_access z layer mip) A_TRANSFER_WRITE = true -> has (z_stage z layer mip) S_TRANSFER = true -> z_pending z layer mip = Idle ->
  exists z', synchronise_all im z [CBlitImage (i_id im) L_TRANSFER_SRC (i_id im) L_TRANSFER_DST
                  (LR im layer (mip - 1)) (LR im layer mip) (0, 0, 0) (level_dims im (mip - 1)) (0, 0, 0) (level_dims im mip) FILTER_LINEAR] = Some z' /\
    (forall l m, ~ (l = layer /\ mip - 1 <= m <= mip) -> zsame z z' l m) /\
    (forall l m, z_access z' l m = z_access z l m /\ z_stage z' l m = z_stage z l m) /\
    z_pending z' layer (mip - 1) = ReadBy /\ z_pending z' layer mip = WrittenBy.
Proof.
  intros H1 A1 A2 A3 B1 B2 B3. cbn [synchronise_all synchronise]. rewrite !N.eqb_refl.
  assert (O : forall m, one_level im (LR im layer m) = true) by (intro; unfold one_level, level_range; cbn [r_layers r_levels r_aspect]; rewrite !N.eqb_refl; reflexivity).
  rewrite !O. assert (EL : forall m, r_layer (LR im layer m) = layer) by reflexivity. assert (EM : forall m, r_mip (LR im layer m) = m) by reflexivity.
  rewrite !EL, !EM. rewrite A1, A2, B1, B2, B3. cbn [andb].
  eexists. split; [destruct (z_pending z layer (mip - 1)); [reflexivity|reflexivity|contradiction]|].
  split; [|split; [|split]].
  - intros l m Hne. unfold zsame. cbn [z_access z_stage z_pending]. rewrite !level_at'. split; [reflexivity|]. split; [reflexivity|].
    replace (andb (N.eqb l layer) (N.eqb m mip)) with false by ar. replace (andb (N.eqb l layer) (N.eqb m (mip - 1))) with false by ar. reflexivity.
  - intros l m. split; reflexivity.
  - cbn [z_pending]. rewrite !level_at'. replace (N.eqb (mip - 1) mip) with false by ar. rewrite !N.eqb_refl. reflexivity.
  - cbn [z_pending]. rewrite !level_at', !N.eqb_refl. reflexivity.
Qed.

Definition next_ok (next : lstate) : Prop :=
  ls_layout next <> L_UNDEFINED /\ ls_layout next <> L_TRANSFER_DST /\
  (ls_layout next = L_TRANSFER_SRC -> has A_TRANSFER_READ (ps_access (ls_state next)) = true).
Definition source_ready (c : rctx) (z : hazard) im vt layer mip : Prop :=
  ls_layout (K c im vt layer mip L_TRANSFER_SRC) = L_TRANSFER_SRC /\ ps_stage (ls_state (K c im vt layer mip L_TRANSFER_SRC)) = S_TRANSFER /\
  has (z_access z layer mip) A_TRANSFER_READ = true /\ has (z_stage z layer mip) S_TRANSFER = true /\ z_pending z layer mip = Idle.
Definition later_ready (c : rctx) (z : hazard) im vt layer mip : Prop :=
  z_pending z layer mip = Idle /\
  (let k := K c im vt layer mip L_UNDEFINED in ls_layout k = L_TRANSFER_DST ->
     has (ps_access (ls_state k)) A_TRANSFER_WRITE = true /\ has (z_access z layer mip) A_TRANSFER_WRITE = true /\ has (z_stage z layer mip) S_TRANSFER = true).
Definition left_for (z : hazard) (next : lstate) (layer mip : N) : Prop :=
  z_pending z layer mip <> WrittenBy /\ has (z_access z layer mip) (ps_access (ls_state next)) = true /\ has (z_stage z layer mip) (ps_stage (ls_state next)) = true.
Lemma zsame_trans z1 z2 z3 l m : zsame z1 z2 l m -> zsame z2 z3 l m -> zsame z1 z3 l m.
Proof. intros (A & B & C) (D & E & F). unfold zsame. rewrite D, E, F. auto. Qed.
Lemma zsame_left z z' next l m : zsame z z' l m -> left_for z next l m -> left_for z' next l m.
Proof. intros (A & B & C) (D & E & F). unfold left_for. rewrite A, B, C. auto. Qed.
Lemma zsame_later c c' z z' im vt l m : zsame z z' l m -> (K c' im vt l m L_UNDEFINED = K c im vt l m L_UNDEFINED) -> later_ready c z im vt l m -> later_ready c' z' im vt l m.
Proof. intros (A & B & C) E (D & F). unfold later_ready. rewrite A, B, C, E. auto. Qed.

Lemma mip_loop_sync e im vt layer next : bounds im vt layer -> next_ok next ->
  forall n mip c z, 1 <= mip -> N.of_nat n = i_levels im - mip -> (0 < n)%nat ->
  source_ready c z im vt layer (mip - 1) -> (forall m, mip <= m < i_levels im -> later_ready c z im vt layer m) ->
  exists c' l z', mip_loop e im vt layer next n mip c = (c', l) /\ synchronise_all im z l = Some z' /\
    (forall m, mip - 1 <= m < i_levels im -> left_for z' next layer m) /\
    (forall l m, ~ (l = layer /\ mip - 1 <= m < i_levels im) -> zsame z z' l m) /\
    (forall layer' mip' i, layer' < 2 ^ 32 -> mip' < 2 ^ 31 -> ~ (mip - 1 <= mip' < i_levels im) \/ (vt <> VT_3D /\ layer <> layer') ->
        K c' im vt layer' mip' i = K c im vt layer' mip' i).
Proof.
  intros B (N1 & N2 & N3). pose proof B as [Bd Bl Bn]. induction n as [|n IH]; intros mip c z H1 Hn Hpos (R1 & R2 & R3 & R4 & R5) Hlater; [ar|].
  assert (Hmip : mip < 32) by ar. destruct (Hlater mip) as [W1 W2]; [ar|]. cbv zeta in W2.
  (* barrier to TRANSFER_DST *)
  destruct (hb e im vt layer mip L_UNDEFINED dst_state c z B Hmip) as (c1 & l1 & z1 & E1 & X1 & S1 & F1 & Q1).
  { discriminate. } { rewrite W1. exact Logic.I. }
  assert (D1 : z_pending z1 layer mip = Idle /\ has (z_access z1 layer mip) A_TRANSFER_WRITE = true /\ has (z_stage z1 layer mip) S_TRANSFER = true /\
               ls_layout (K c1 im vt layer mip L_TRANSFER_DST) = L_TRANSFER_DST /\
               covered WrittenBy (K c1 im vt layer mip L_TRANSFER_DST)).
  { destruct Q1 as [(Qa & Qs & Qp & Qk)|(-> & -> & Ql & Qt)].
    - split; [exact Qp|]. rewrite Qa, Qs. split; [reflexivity|]. split; [reflexivity|].
      destruct (Qk L_TRANSFER_DST) as [Ek|Ek]; rewrite Ek; split; try reflexivity; split; reflexivity.
    - change (ls_layout dst_state) with L_TRANSFER_DST in Ql. change (ps_stage (ls_state dst_state)) with S_TRANSFER in Qt.
      destruct (W2 Ql) as (Wa & Wb & Wc). rewrite K_known by (rewrite Ql; discriminate).
      split; [exact W1|]. split; [exact Wb|]. split; [exact Wc|]. split; [exact Ql|]. cbn [covered]. rewrite Qt. split; [reflexivity|exact Wa]. }
  destruct D1 as (P1 & A1 & T1 & L1 & V1).
  destruct (S1 layer (mip - 1)) as (Sa & Sb & Sc); [ar|].
  (* blit *)
  destruct (blit_sync im layer mip z1 H1) as (z2 & X2 & S2 & AS2 & P2 & P2').
  { congruence. } { congruence. } { rewrite Sc, R5. discriminate. } { assumption. } { assumption. } { assumption. }
  (* previous level to next *)
  assert (K1 : K c1 im vt layer (mip - 1) L_TRANSFER_SRC = K c im vt layer (mip - 1) L_TRANSFER_SRC) by (apply F1; ar).
  destruct (hb e im vt layer (mip - 1) L_TRANSFER_SRC next c1 z2 B) as (c3 & l3 & z3 & E3 & X3 & S3 & F3 & Q3).
  { ar. } { assumption. } { rewrite P2, K1. cbn [covered]. rewrite R2. reflexivity. }
  assert (D3 : left_for z3 next layer (mip - 1)).
  { destruct Q3 as [(Qa & Qs & Qp & _)|(-> & -> & Ql & Qt)].
    - unfold left_for. rewrite Qa, Qs, Qp, !has_refl. split; [discriminate|auto].
    - rewrite K1, R1 in Ql. rewrite K1, R2 in Qt. destruct (AS2 layer (mip - 1)) as [Ea Es]. unfold left_for. rewrite P2, Ea, Es, Sa, Sb. split; [discriminate|].
      split; [apply (has_trans _ _ _ R3), N3; symmetry; exact Ql|rewrite <- Qt; exact R4]. }
  assert (KC : K c3 im vt layer mip L_TRANSFER_DST = K c1 im vt layer mip L_TRANSFER_DST) by (apply F3; ar).
  assert (PC : z_pending z3 layer mip = WrittenBy).
  { destruct (S3 layer mip) as (_ & _ & E); [ar|]. rewrite E. exact P2'. }
  assert (FR3 : forall l m, ~ (l = layer /\ mip - 1 <= m <= mip) -> zsame z z3 l m).
  { intros l m Hne. apply (zsame_trans z z1 z3); [apply S1; ar|]. apply (zsame_trans z1 z2 z3); [apply S2; exact Hne|apply S3; ar]. }
  assert (FK3 : forall layer' mip' i, layer' < 2 ^ 32 -> mip' < 2 ^ 31 -> ~ (mip - 1 <= mip' <= mip) \/ (vt <> VT_3D /\ layer <> layer') -> K c3 im vt layer' mip' i = K c im vt layer' mip' i).
  { intros layer' mip' i Hl' Hm' Hd. rewrite F3, F1; try assumption; [reflexivity| |]; destruct Hd as [|[? ?]]; try tauto; left; ar. }
  cbn [mip_loop]. rewrite E1. unfold emit at 1. cbn [seq2]. rewrite E3. cbn [seq2].
  match goal with |- context [l1 ++ ?b] => remember (l1 ++ b) as l2 eqn:El2 end.
  assert (X12 : synchronise_all im z l2 = Some z2). { subst l2. rewrite sync_app, X1. exact X2. }
  clear El2. assert (Xf : synchronise_all im z (l2 ++ l3) = Some z3) by (rewrite sync_app, X12; exact X3). set (lf := l2 ++ l3) in *. clearbody lf.
  destruct (N.eqb_spec mip (i_levels im - 1)) as [Elast|Elast].
  - (* last level *)
    destruct n as [|n]; [|ar].
    destruct (hb e im vt layer mip L_TRANSFER_DST next c3 z3 B) as (c4 & l4 & z4 & E4 & X4 & S4 & F4 & Q4).
    { ar. } { assumption. } { rewrite PC, KC. exact V1. }
    cbn [mip_loop]. rewrite E4. cbn [seq2]. rewrite app_nil_r.
    exists c4, (lf ++ l4), z4. split; [reflexivity|]. split; [rewrite sync_app, Xf; exact X4|]. split; [|split].
    + intros m Hm. destruct (N.eq_dec m mip) as [->|Nm].
      * destruct Q4 as [(Qa & Qs & Qp & _)|(_ & _ & Ql & _)].
        -- unfold left_for. rewrite Qa, Qs, Qp, !has_refl. split; [discriminate|auto].
        -- exfalso. rewrite KC, L1 in Ql. congruence.
      * assert (m = mip - 1) as -> by ar. apply (zsame_left z3); [apply S4; ar|exact D3].
    + intros l m Hne. apply (zsame_trans z z3 z4); [apply FR3; ar|apply S4; ar].
    + intros layer' mip' i Hl' Hm' Hd. rewrite F4, FK3; try assumption; [reflexivity| |]; destruct Hd as [|[? ?]]; try tauto; left; ar.
  - (* another iteration *)
    destruct (hb e im vt layer mip L_TRANSFER_DST src_state_again c3 z3 B) as (c4 & l4 & z4 & E4 & X4 & S4 & F4 & Q4).
    { ar. } { discriminate. } { rewrite PC, KC. exact V1. }
    assert (D4 : source_ready c4 z4 im vt layer mip).
    { destruct Q4 as [(Qa & Qs & Qp & Qk)|(_ & _ & Ql & _)].
      - unfold source_ready. rewrite Qa, Qs, Qp. destruct (Qk L_TRANSFER_SRC) as [Ek|Ek]; rewrite Ek; repeat split; reflexivity.
      - exfalso. rewrite KC, L1 in Ql. discriminate. }
    destruct (IH (mip + 1) c4 z4) as (c5 & l5 & z5 & E5 & X5 & R5' & FR5 & FK5).
    { ar. } { ar. } { ar. }
    { replace (mip + 1 - 1) with mip by ar. exact D4. }
    { intros m Hm. apply (zsame_later c c4 z z4); [apply (zsame_trans z z3 z4); [apply FR3; ar|apply S4; ar]| |apply Hlater; ar].
      rewrite F4, FK3 by ar. reflexivity. }
    rewrite E4. cbn [seq2]. rewrite E5. exists c5, ((lf ++ l4) ++ l5), z5.
    split; [reflexivity|]. split; [rewrite sync_app, sync_app, Xf, X4; exact X5|]. replace (mip + 1 - 1) with mip in * by ar. split; [|split].
    + intros m Hm. destruct (N.le_gt_cases mip m) as [Hge|Hlt]; [apply R5'; ar|].
      assert (m = mip - 1) as -> by ar. apply (zsame_left z4); [apply FR5; ar|]. apply (zsame_left z3); [apply S4; ar|exact D3].
    + intros l m Hne. apply (zsame_trans z z3 z5); [apply FR3; ar|]. apply (zsame_trans z3 z4 z5); [apply S4; ar|apply FR5; ar].
    + intros layer' mip' i Hl' Hm' Hd. rewrite FK5, F4, FK3; try assumption; [reflexivity| | |]; destruct Hd as [|[? ?]]; try tauto; left; ar.
Qed.

(* ---- the layers ---- *)
Definition prepared_layer (g : rgraph) (c : rctx) (z : hazard) (v : view) itype layer : Prop :=
  let im := v_image v in
  z_pending z layer 0 = Idle /\ said_layout g c im itype layer 0 <> L_UNDEFINED /\
  (said_layout g c im itype layer 0 = L_TRANSFER_SRC -> has (z_access z layer 0) A_TRANSFER_READ = true /\ has (z_stage z layer 0) S_TRANSFER = true) /\
  (forall mip, 1 <= mip < i_levels im -> later_ready c z im itype layer mip).

Lemma mip_layer_sync e g v itype next layer c z : let im := v_image v in
  (itype = VT_3D <-> v_type v = VT_3D) -> bounds im itype layer -> 2 <= i_levels im -> next_ok next -> prepared_layer g c z v itype layer ->
  exists c' l z', mip_layer e g v itype next layer c = (c', l) /\ synchronise_all im z l = Some z' /\
    (forall m, m < i_levels im -> left_for z' next layer m) /\
    (forall l m, ~ (l = layer /\ m < i_levels im) -> zsame z z' l m) /\
    (forall layer' mip' i, layer' < 2 ^ 32 -> mip' < 2 ^ 31 -> i_levels im <= mip' \/ (itype <> VT_3D /\ layer <> layer') ->
        K c' im itype layer' mip' i = K c im itype layer' mip' i).
Proof.
  intros im H3 B Hlev Hnx (Z0 & Z1 & Z2 & Z3). fold im in Z1, Z2, Z3. pose proof B as [Bd Bl Bn].
  unfold mip_layer. fold im. rewrite (vt_current g c im (v_type v) itype) by tauto.
  destruct (current_level g c im itype layer B Z1) as (c1 & first & E1 & F1 & K1 & FK1). rewrite E1.
  destruct (hb e im itype layer 0 (ls_layout first) src_state c1 z B) as (c2 & l2 & z2 & E2 & X2 & S2 & FK2 & Q2).
  { ar. } { discriminate. } { rewrite Z0. exact Logic.I. }
  assert (D2 : source_ready c2 z2 im itype layer 0).
  { destruct Q2 as [(Qa & Qs & Qp & Qk)|(-> & -> & Ql & Qt)].
    - unfold source_ready. rewrite Qa, Qs, Qp. destruct (Qk L_TRANSFER_SRC) as [Ek|Ek]; rewrite Ek; repeat split; reflexivity.
    - change (ls_layout src_state) with L_TRANSFER_SRC in Ql. change (ps_stage (ls_state src_state)) with S_TRANSFER in Qt.
      assert (EF : ls_layout first = L_TRANSFER_SRC) by congruence. rewrite EF in *. destruct Z2 as [Za Zb]; [congruence|].
      unfold source_ready. repeat split; assumption. }
  destruct (mip_loop_sync e im itype layer next B Hnx (N.to_nat (i_levels im - 1)) 1 c2 z2) as (c3 & l3 & z3 & E3 & X3 & R3 & FR3 & FK3); try ar.
  { exact D2. }
  { intros m Hm. apply (zsame_later c c2 z z2); [apply S2; ar| |apply Z3; ar]. rewrite FK2, FK1 by ar. reflexivity. }
  change (1 - 1) with 0 in *. rewrite E2. cbn [seq2]. rewrite E3. exists c3, (l2 ++ l3), z3. split; [reflexivity|].
  split; [rewrite sync_app, X2; exact X3|]. split; [|split].
  - intros m Hm. apply R3. ar.
  - intros l m Hne. apply (zsame_trans z z2 z3); [apply S2; ar|apply FR3; ar].
  - intros layer' mip' i Hl' Hm' Hx. rewrite FK3, FK2, FK1; try assumption; [reflexivity| | |]; destruct Hx as [|[? ?]]; try tauto; left; ar.
Qed.

Lemma layers_sync e g v itype next : let im := v_image v in
  (itype = VT_3D <-> v_type v = VT_3D) -> i_depth im < 2 ^ 31 -> 2 <= i_levels im <= 32 -> next_ok next ->
  forall layers c z, NoDup layers -> (itype = VT_3D -> (length layers <= 1)%nat) -> (forall l, In l layers -> l < 2 ^ 32) ->
  (forall l, In l layers -> prepared_layer g c z v itype l) ->
  exists c' l z', run_all (mip_layer e g v itype next) layers c = (c', l) /\ synchronise_all im z l = Some z' /\
    (forall layer m, In layer layers -> m < i_levels im -> left_for z' next layer m) /\
    (forall l m, ~ (In l layers /\ m < i_levels im) -> zsame z z' l m).
Proof.
  intros im H3 Hdp Hlev Hnx. induction layers as [|layer layers IH]; intros c z Hnd H1 Hb Hinf.
  - exists c, [], z. split; [reflexivity|]. split; [reflexivity|]. split; [intros ? ? []|]. intros; unfold zsame; auto.
  - apply NoDup_cons_iff in Hnd. destruct Hnd as [Hni Hnd'].
    assert (B : bounds im itype layer) by (constructor; [assumption|apply Hb; left; reflexivity|ar]).
    destruct (mip_layer_sync e g v itype next layer c z H3 B) as (c1 & l1 & z1 & E1 & X1 & R1 & FR1 & FK1); [apply Hlev|assumption|apply Hinf; left; reflexivity|].
    fold im in E1, X1, R1, FR1, FK1.
    destruct (IH c1 z1) as (c2 & l2 & z2 & E2 & X2 & R2 & FR2); try assumption.
    + intro X. specialize (H1 X). cbn [length] in H1. ar.
    + intros l Hl. apply Hb. right. exact Hl.
    + intros l Hl. destruct (Hinf l (or_intror Hl)) as (J0 & J1 & J2 & J3). fold im in J1, J2, J3.
      assert (Nl : layer <> l) by (intro; subst; contradiction).
      assert (N3 : itype <> VT_3D). { intro X. specialize (H1 X). destruct layers; [destruct Hl|cbn [length] in H1; ar]. }
      assert (Hl32 : l < 2 ^ 32) by (apply Hb; right; exact Hl).
      assert (ES : said_layout g c1 im itype l 0 = said_layout g c im itype l 0).
      { apply said_K. intro i. apply FK1; [assumption|ar|right; split; assumption]. }
      destruct (FR1 l 0) as (Fa & Fb & Fc); [intros [? _]; congruence|].
      unfold prepared_layer. fold im. rewrite ES, Fa, Fb, Fc. split; [exact J0|]. split; [exact J1|]. split; [exact J2|].
      intros mip Hm. apply (zsame_later c c1 z z1); [apply FR1; intros [? _]; congruence| |apply J3; exact Hm].
      apply FK1; [assumption|ar|right; split; assumption].
    + rewrite run_all_cons, E1. cbn [seq2]. rewrite E2. exists c2, (l1 ++ l2), z2.
      split; [reflexivity|]. split; [rewrite sync_app, X1; exact X2|]. split.
      * intros la m [<-|Hin] Hm; [|apply R2; assumption]. apply (zsame_left z1); [apply FR2; tauto|apply R1; exact Hm].
      * intros l m Hne. cbn [In] in Hne. apply (zsame_trans z z1 z2); [apply FR1|apply FR2]; intuition.
Qed.

Lemma mips_sync e g p v itype c z : let im := v_image v in let next := getNextLayoutState e g c p v in
  mips_view_ok v itype -> 2 <= i_levels im -> next_ok next -> prepared g c z v ->
  exists z', synchronise_all im z (snd (generate_mips e g p v itype c)) = Some z' /\
    (forall layer m, r_layer (v_range v) <= layer < r_layer (v_range v) + r_layers (v_range v) -> m < i_levels im -> left_for z' next layer m) /\
    (forall l m, ~ (r_layer (v_range v) <= l < r_layer (v_range v) + r_layers (v_range v) /\ m < i_levels im) -> zsame z z' l m).
Proof.
  intros im next (H3 & H3l & Hb & Hl & Hw & Hh & Hd) H2 Hnx Hinf.
  set (layers := map (fun i => r_layer (v_range v) + i) (iota (r_layers (v_range v)))).
  assert (IL : forall l, In l layers <-> r_layer (v_range v) <= l < r_layer (v_range v) + r_layers (v_range v)).
  { intro l. unfold layers. rewrite in_map_iff. split.
    - intros (i & <- & Hi). apply in_iota in Hi. ar.
    - intro Hr. exists (l - r_layer (v_range v)). split; [ar|]. apply in_iota. ar. }
  destruct (layers_sync e g v itype next H3 Hd (conj H2 (proj2 Hl)) Hnx layers c z) as (c' & l & z' & E & X & R & FR).
  - unfold layers. apply FinFun.Injective_map_NoDup; [intros a b; ar|].
    unfold iota. apply FinFun.Injective_map_NoDup; [intros a b; ar|apply seq_NoDup].
  - intro Q. specialize (H3l Q). unfold layers, iota. rewrite !map_length, seq_length. ar.
  - intros la Hin. apply IL in Hin. ar.
  - intros la Hin. apply IL in Hin. destruct (Hinf la Hin) as (J1 & J2 & J3 & J4). fold im in J1, J2, J3, J4. unfold prepared_layer. fold im.
    assert (ES : said_layout g c im itype la 0 = said_layout g c im (v_type v) la 0).
    { unfold said_layout. rewrite (vt_current g c im itype (v_type v)) by tauto. reflexivity. }
    rewrite ES. split; [apply J1; ar|]. split; [exact J2|]. split; [exact J3|].
    intros mip Hm. split; [apply J1; ar|]. specialize (J4 mip Hm). cbv zeta in *. intro EL. rewrite K_undefined in EL.
    assert (EV : rc_getLayoutState c im itype (LR im la mip) = rc_getLayoutState c im (v_type v) (LR im la mip)).
    { unfold rc_getLayoutState. apply vt_get. tauto. }
    unfold K, known_state. rewrite EV in *. specialize (J4 EL). rewrite EL. cbn [N.eqb]. exact J4.
  - exists z'. fold next in E. unfold generate_mips. fold next. fold layers. rewrite E. split; [exact X|]. split.
    + intros layer m Hla Hm. apply R; [apply IL; exact Hla|exact Hm].
    + intros la m Hne. apply FR. rewrite IL. exact Hne.
Qed.
