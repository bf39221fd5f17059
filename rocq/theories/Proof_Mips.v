(* Proofs about the mipmaps generation. *)
From Verif Require Import Spec_Mips Proof_Layout Proof_Record.
From Coq Require Import ZifyBool ZifyNat ZifyN FinFun.
Local Open Scope N_scope.

Definition trackable (im : image) (vt mip : N) : Prop := vt = VT_3D -> 0 < N.shiftr (i_depth im) mip.
Notation LR im layer mip := (level_range (i_format im) layer mip).

Lemma level_valid f layer mip : layer < 2 ^ 32 -> mip < 2 ^ 32 -> valid_range (level_range f layer mip).
Proof. intros. unfold valid_range, level_range; cbn [r_levels r_layers r_mip r_layer]. lia. Qed.

Lemma in_level f layer mip l m : in_range (level_range f layer mip) l m <-> l = layer /\ m = mip.
Proof. unfold in_range, level_range; cbn [r_levels r_layers r_mip r_layer]. lia. Qed.

Lemma level_virtual im vt layer mip :
  getVirtualRange im vt (LR im layer mip) =
  if N.eqb vt VT_3D then {| r_aspect := getAspectMask (i_format im); r_mip := mip; r_levels := 1; r_layer := 0; r_layers := N.shiftr (i_depth im) mip |}
  else LR im layer mip.
Proof. unfold getVirtualRange, level_range; cbn [r_levels r_layers r_mip r_layer r_aspect]. destruct (N.eqb vt VT_3D); reflexivity. Qed.

(* the answer for a level whose virtual range is empty *)
Lemma untracked_get h im vt layer mip : ~ trackable im vt mip -> ls_layout (getLayoutState h im vt (LR im layer mip)) = L_UNDEFINED.
Proof.
  intro H. unfold trackable in H. destruct (N.eq_dec vt VT_3D) as [->|]; [|exfalso; apply H; contradiction].
  unfold getLayoutState. destruct (mfind (i_id im) h); [|reflexivity].
  rewrite level_virtual, N.eqb_refl. assert (N.shiftr (i_depth im) mip = 0) as -> by lia.
  reflexivity.
Qed.

Definition K (c : rctx) im vt layer mip initial := known_state c im vt (LR im layer mip) initial.

Lemma K_same c im vt layer mip s i : i_depth im < 2 ^ 31 -> layer < 2 ^ 32 -> mip < 2 ^ 31 -> trackable im vt mip -> ls_layout s <> L_UNDEFINED ->
  K (rc_setLayoutState c im vt (LR im layer mip) s) im vt layer mip i = s.
Proof.
  intros Hd Hl Hm Ht Hs. unfold K, known_state, rc_getLayoutState, rc_setLayoutState, set_images; cbn [rc_images].
  assert (G : getLayoutState (setLayoutState (rc_images c) im vt (LR im layer mip) s) im vt (LR im layer mip) = s).
  { assert (V : valid_range (getVirtualRange im vt (LR im layer mip))).
    { rewrite level_virtual. destruct (N.eqb_spec vt VT_3D) as [E|E].
      - specialize (Ht E). pose proof (shiftr_le (i_depth im) mip). unfold valid_range; cbn [r_levels r_layers r_mip r_layer]. lia.
      - apply level_valid; lia. }
    apply set_get; [exact V|exact V|intros ? ? X; exact X]. }
  rewrite G. destruct (N.eqb_spec (ls_layout s) L_UNDEFINED); [contradiction|reflexivity].
Qed.

Lemma K_untracked c im vt layer mip i : ~ trackable im vt mip -> K c im vt layer mip i = makeLayoutState i.
Proof. intro H. unfold K, known_state, rc_getLayoutState. rewrite untracked_get by assumption. reflexivity. Qed.

Lemma get_unknown_irrel (h h' : handler) im vt r :
  (forall m, mfind (i_id im) h = Some m -> mfind (i_id im) h' = Some m) -> mfind (i_id im) h = mfind (i_id im) h' -> getLayoutState h im vt r = getLayoutState h' im vt r.
Proof. intros _ E. unfold getLayoutState. rewrite E. reflexivity. Qed.

Lemma K_other c im vt layer mip layer' mip' s i : i_depth im < 2 ^ 31 -> layer < 2 ^ 32 -> mip < 2 ^ 31 -> layer' < 2 ^ 32 -> mip' < 2 ^ 31 ->
  mip <> mip' \/ (vt <> VT_3D /\ layer <> layer') ->
  K (rc_setLayoutState c im vt (LR im layer mip) s) im vt layer' mip' i = K c im vt layer' mip' i.
Proof.
  intros Hd Hl Hm Hl' Hm' Hx.
  destruct (N.eq_dec vt VT_3D) as [E3|E3].
  - destruct (N.eq_dec (N.shiftr (i_depth im) mip') 0) as [Z|Z].
    { rewrite !K_untracked; [reflexivity| |]; unfold trackable; intro X; specialize (X E3); lia. }
    unfold K, known_state, rc_getLayoutState, rc_setLayoutState, set_images; cbn [rc_images].
    unfold getLayoutState. rewrite set_mfind, N.eqb_refl.
    assert (NW : nowrap (getVirtualRange im vt (LR im layer mip)) /\ nowrap (getVirtualRange im vt (LR im layer' mip'))).
    { rewrite !level_virtual. subst vt. rewrite N.eqb_refl. pose proof (shiftr_le (i_depth im) mip). pose proof (shiftr_le (i_depth im) mip').
      unfold nowrap; cbn [r_levels r_layers r_mip r_layer]. lia. }
    assert (DJ : disjoint_ranges (getVirtualRange im vt (LR im layer' mip')) (getVirtualRange im vt (LR im layer mip))).
    { rewrite !level_virtual. subst vt. rewrite N.eqb_refl. intros a b [_ H1] [_ H2]. cbn [r_levels r_layers r_mip r_layer] in *. lia. }
    destruct (mfind (i_id im) (rc_images c)) as [m|].
    + rewrite disjoint_get by tauto. reflexivity.
    + rewrite disjoint_get by tauto. replace (getSubresourceRangeLayout [] (getVirtualRange im vt (LR im layer' mip'))) with (makeLayoutState L_UNDEFINED).
      * cbn. reflexivity.
      * pose proof (get_is_summary [] (getVirtualRange im vt (LR im layer' mip')) (proj2 NW)) as S.
        unfold is_summary in S. replace (tracked_list [] (getVirtualRange im vt (LR im layer' mip'))) with (@nil lstate) in S; [rewrite S; reflexivity|].
        unfold tracked_list. symmetry. clear. induction (subresources _) as [|x l IH]; [reflexivity|]. cbn. exact IH.
  - unfold K, known_state, rc_getLayoutState, rc_setLayoutState, set_images; cbn [rc_images].
    unfold getLayoutState. rewrite set_mfind, N.eqb_refl.
    rewrite !virtual_not3d by assumption.
    assert (DJ : disjoint_ranges (LR im layer' mip') (LR im layer mip)).
    { intros a b H1 H2. rewrite in_level in *. destruct Hx as [|[_ Hx]]; lia. }
    assert (NW : nowrap (LR im layer mip) /\ nowrap (LR im layer' mip')).
    { split; apply valid_nowrap, level_valid; lia. }
    destruct (mfind (i_id im) (rc_images c)) as [m|].
    + rewrite disjoint_get by tauto. reflexivity.
    + rewrite disjoint_get by tauto. replace (getSubresourceRangeLayout [] (LR im layer' mip')) with (makeLayoutState L_UNDEFINED).
      * cbn. reflexivity.
      * pose proof (get_is_summary [] (LR im layer' mip') (proj2 NW)) as S.
        unfold is_summary in S. replace (tracked_list [] (LR im layer' mip')) with (@nil lstate) in S; [rewrite S; reflexivity|].
        unfold tracked_list. symmetry. clear. induction (subresources _) as [|x l IH]; [reflexivity|]. cbn. exact IH.
Qed.

(* ---- one barrier ---- *)

Lemma execute_app im l1 : forall d l2, execute_all im d (l1 ++ l2) = match execute_all im d l1 with Some d' => execute_all im d' l2 | None => None end.
Proof. induction l1 as [|c l1 IH]; intros d l2; cbn; [reflexivity|]. destruct (execute im d c); [apply IH|reflexivity]. Qed.

Lemma adapt_at_sub sep im id i layer mip l m : at_sub id i (adaptRange sep (i_format im) (LR im layer mip)) l m =
  andb (N.eqb i id) (andb (N.eqb l layer) (N.eqb m mip)).
Proof.
  unfold at_sub. f_equal.
  assert (A : in_rangeb (adaptRange sep (i_format im) (LR im layer mip)) l m = true <-> andb (N.eqb l layer) (N.eqb m mip) = true).
  { rewrite in_rangeb_spec, adapt_in_range, in_level, andb_true_iff, !N.eqb_eq. reflexivity. }
  destruct (in_rangeb _ l m), (andb (N.eqb l layer) _); try reflexivity; [symmetry|]; apply A; reflexivity.
Qed.

Record bounds (im : image) (vt : N) (layer : N) : Prop := {
  b_depth : i_depth im < 2 ^ 31; b_layer : layer < 2 ^ 32; b_levels : 1 <= i_levels im <= 32 }.

(* Same device apart from one subresource *)
Definition same_but (d d' : device) (id layer mip : N) : Prop :=
  forall i l m, ~ (i = id /\ l = layer /\ m = mip) -> d_layout d' i l m = d_layout d i l m /\ d_content d' i l m = d_content d i l m.

Lemma barrier_step e im vt layer mip initial wanted c d :
  bounds im vt layer -> mip < 32 -> ls_layout wanted <> L_UNDEFINED ->
  (let k := ls_layout (K c im vt layer mip initial) in k = L_UNDEFINED \/ k = d_layout d (i_id im) layer mip) ->
  exists c' l d', level_barrier e im vt layer mip initial wanted c = (c', l) /\
    execute_all im d l = Some d' /\ same_but d d' (i_id im) layer mip /\
    d_layout d' (i_id im) layer mip = ls_layout wanted /\
    (ls_layout (K c im vt layer mip initial) <> L_UNDEFINED -> d_content d' (i_id im) layer mip = d_content d (i_id im) layer mip) /\
    ls_layout (K c' im vt layer mip (ls_layout wanted)) = ls_layout wanted /\
    (forall layer' mip' i, layer' < 2 ^ 32 -> mip' < 2 ^ 31 -> mip <> mip' \/ (vt <> VT_3D /\ layer <> layer') ->
        K c' im vt layer' mip' i = K c im vt layer' mip' i).
Proof.
  intros B Hm Hw Hk. destruct B as [Bd Bl Bn].
  unfold level_barrier. destruct (barrier_cases (e_separate e) c im vt (LR im layer mip) initial wanted false) as [[Hn E]|[Hn E]]; rewrite E; clear E.
  - set (d' := {| d_layout := fun i l m => if andb (N.eqb i (i_id im)) (andb (N.eqb l layer) (N.eqb m mip)) then ls_layout wanted else d_layout d i l m;
                  d_content := fun i l m => if andb (andb (N.eqb i (i_id im)) (andb (N.eqb l layer) (N.eqb m mip))) (N.eqb (ls_layout (K c im vt layer mip initial)) L_UNDEFINED) then Lost else d_content d i l m |}).
    do 2 eexists. exists (
      {| d_layout := fun i l m => if at_sub (i_id im) i (adaptRange (e_separate e) (i_format im) (LR im layer mip)) l m then ls_layout wanted else d_layout d i l m;
                  d_content := fun i l m => if andb (at_sub (i_id im) i (adaptRange (e_separate e) (i_format im) (LR im layer mip)) l m) (N.eqb (ls_layout (K c im vt layer mip initial)) L_UNDEFINED) then Lost else d_content d i l m |}).
    split; [reflexivity|]. split; [|split; [|split; [|split; [|split]]]].
    + cbn [execute_all execute]. rewrite N.eqb_refl. cbn [andb].
      assert (F : forallb (fun s : N * N => orb (N.eqb (ls_layout (known_state c im vt (LR im layer mip) initial)) L_UNDEFINED)
         (N.eqb (ls_layout (known_state c im vt (LR im layer mip) initial)) (d_layout d (i_id im) (fst s) (snd s)))) (subresources (adaptRange (e_separate e) (i_format im) (LR im layer mip))) = true).
      { apply forallb_forall. intros [l m] Hi. apply in_subresources in Hi. rewrite adapt_in_range, in_level in Hi. destruct Hi as [-> ->].
        cbn [fst snd]. unfold K in Hk. cbv zeta in Hk. apply orb_true_iff. rewrite !N.eqb_eq. exact Hk. }
      rewrite F. reflexivity.
    + intros i l m Hne. cbn [d_layout d_content]. rewrite adapt_at_sub.
      replace (andb (N.eqb i (i_id im)) (andb (N.eqb l layer) (N.eqb m mip))) with false; [cbn; auto|].
      symmetry. apply not_true_iff_false. rewrite !andb_true_iff, !N.eqb_eq. tauto.
    + cbn [d_layout]. rewrite adapt_at_sub, !N.eqb_refl. reflexivity.
    + intro Hu. cbn [d_content]. apply N.eqb_neq in Hu. rewrite Hu, andb_false_r. reflexivity.
    + destruct (N.eq_dec vt VT_3D) as [E3|E3].
      * destruct (N.eq_dec (N.shiftr (i_depth im) mip) 0) as [Z|Z].
        { rewrite K_untracked; [reflexivity|]. intro X. specialize (X E3). lia. }
        rewrite K_same; [reflexivity|lia|lia|lia|intro; lia|assumption].
      * rewrite K_same; [reflexivity|lia|lia|lia|intro; contradiction|assumption].
    + intros. apply K_other; try assumption; lia.
  - exists c, [], d.
    assert (Ek : ls_layout (K c im vt layer mip initial) = ls_layout wanted).
    { destruct (N.eq_dec (ls_layout (K c im vt layer mip initial)) (ls_layout wanted)) as [|X]; [assumption|]. exfalso. apply Hn. right. split; [left; exact X|assumption]. }
    split; [reflexivity|]. split; [reflexivity|]. split; [|split; [|split; [|split]]].
    + intros i l m _. auto.
    + cbv zeta in Hk. rewrite Ek in Hk. destruct Hk as [Hk|Hk]; [contradiction|]. congruence.
    + reflexivity.
    + unfold K, known_state in *. destruct (N.eqb _ _); [reflexivity|assumption].
    + reflexivity.
Qed.

(* ---- the loop over the levels ---- *)

Lemma dim_size n k : getSubresourceDimension n k = vk_size n k.
Proof. unfold getSubresourceDimension, vk_size. rewrite N.shiftr_div_pow2. reflexivity. Qed.

Lemma whole_dims im k : whole_level im k (0, 0, 0) (level_dims im k) = true.
Proof. unfold whole_level, level_dims, at_point. cbn [fst snd]. rewrite !dim_size, !N.eqb_refl. reflexivity. Qed.

Lemma blit_step im layer mip d : 1 <= mip ->
  d_layout d (i_id im) layer (mip - 1) = L_TRANSFER_SRC -> d_layout d (i_id im) layer mip = L_TRANSFER_DST ->
  exists d', execute_all im d [CBlitImage (i_id im) L_TRANSFER_SRC (i_id im) L_TRANSFER_DST
                  (LR im layer (mip - 1)) (LR im layer mip) (0, 0, 0) (level_dims im (mip - 1)) (0, 0, 0) (level_dims im mip) FILTER_LINEAR] = Some d' /\
    same_but d d' (i_id im) layer mip /\ d_layout d' (i_id im) layer mip = L_TRANSFER_DST /\
    d_content d' (i_id im) layer mip = Reduced (d_content d (i_id im) layer (mip - 1)).
Proof.
  intros Hm H1 H2. cbn [execute_all execute]. rewrite !N.eqb_refl.
  assert (O : forall m, one_level im (LR im layer m) = true) by (intro; unfold one_level, level_range; cbn [r_layers r_levels r_aspect]; rewrite !N.eqb_refl; reflexivity).
  rewrite !O. unfold level_range at 1 2 3 4. cbn [r_layer r_mip]. rewrite H1, H2, !N.eqb_refl. cbn [andb].
  eexists. split; [reflexivity|].
  assert (A : forall i l m, at_sub (i_id im) i (LR im layer mip) l m = andb (N.eqb i (i_id im)) (andb (N.eqb l layer) (N.eqb m mip))).
  { intros. unfold at_sub. f_equal. assert (Q : in_rangeb (LR im layer mip) l m = true <-> andb (N.eqb l layer) (N.eqb m mip) = true).
    { rewrite in_rangeb_spec, in_level, andb_true_iff, !N.eqb_eq. reflexivity. }
    destruct (in_rangeb _ l m), (andb (N.eqb l layer) _); try reflexivity; [symmetry|]; apply Q; reflexivity. }
  split; [|split].
  - intros i l m Hne. cbn [d_layout d_content]. split; [reflexivity|]. rewrite A.
    replace (andb (N.eqb i (i_id im)) (andb (N.eqb l layer) (N.eqb m mip))) with false; [reflexivity|].
    symmetry. apply not_true_iff_false. rewrite !andb_true_iff, !N.eqb_eq. tauto.
  - exact H2.
  - cbn [d_content]. rewrite A, !N.eqb_refl. cbn [andb]. unfold level_range at 1 2 3 4 5. cbn [r_layer r_mip].
    rewrite !whole_dims. replace (mip - 1 + 1) with mip by lia. rewrite N.eqb_refl. reflexivity.
Qed.

Lemma seq_exec im d d1 d2 c1 l1 c2 l2 (x : rctx * list cmd) f :
  x = (c1, l1) -> execute_all im d l1 = Some d1 -> f c1 = (c2, l2) -> execute_all im d1 l2 = Some d2 ->
  x >>> f = (c2, l1 ++ l2) /\ execute_all im d (l1 ++ l2) = Some d2.
Proof. intros -> E1 E2 E3. cbn. rewrite E2. split; [reflexivity|]. rewrite execute_app, E1. exact E3. Qed.

Lemma reduced_succ k c : 1 <= k -> reduced k c = Reduced (reduced (k - 1) c).
Proof. intro H. unfold reduced. destruct (N.eq_dec k (N.succ (k - 1))) as [E|]; [|lia]. set (j := k - 1) in *. rewrite E. apply N.iter_succ. Qed.

(* The context agrees with the device on a level not yet generated *)
Definition agr (c : rctx) (d : device) im vt layer mip : Prop :=
  let k := ls_layout (K c im vt layer mip L_UNDEFINED) in k = L_UNDEFINED \/ k = d_layout d (i_id im) layer mip.

Definition frame_layer (d d' : device) (id layer first levels : N) : Prop :=
  forall i l m, ~ (i = id /\ l = layer /\ first <= m < levels) -> d_layout d' i l m = d_layout d i l m /\ d_content d' i l m = d_content d i l m.

Lemma mip_loop_ok e im vt layer next c0 : bounds im vt layer -> ls_layout next <> L_UNDEFINED ->
  forall n mip c d, 1 <= mip -> N.of_nat n = i_levels im - mip -> (0 < n)%nat ->
  ls_layout (K c im vt layer (mip - 1) L_TRANSFER_SRC) = L_TRANSFER_SRC ->
  d_layout d (i_id im) layer (mip - 1) = L_TRANSFER_SRC -> d_content d (i_id im) layer (mip - 1) = reduced (mip - 1) c0 ->
  (forall m, mip <= m < i_levels im -> agr c d im vt layer m) ->
  exists c' l d', mip_loop e im vt layer next n mip c = (c', l) /\ execute_all im d l = Some d' /\
    (forall m, mip - 1 <= m < i_levels im -> d_layout d' (i_id im) layer m = ls_layout next /\ d_content d' (i_id im) layer m = reduced m c0 /\
        ls_layout (K c' im vt layer m (ls_layout next)) = ls_layout next) /\
    frame_layer d d' (i_id im) layer (mip - 1) (i_levels im) /\
    (forall layer' mip' i, layer' < 2 ^ 32 -> mip' < 2 ^ 31 -> ~ (mip - 1 <= mip' < i_levels im) \/ (vt <> VT_3D /\ layer <> layer') ->
        K c' im vt layer' mip' i = K c im vt layer' mip' i).
Proof.
  intros B Hnx. pose proof B as [Bd Bl Bn]. induction n as [|n IH]; intros mip c d H1 Hn Hpos HK Hlay Hcon Hagr; [lia|].
  assert (Hmip : mip < 32) by lia.
  (* barrier to TRANSFER_DST *)
  destruct (barrier_step e im vt layer mip L_UNDEFINED dst_state c d B Hmip) as (c1 & l1 & d1 & E1 & X1 & S1 & L1 & _ & K1 & F1).
  { discriminate. } { apply Hagr. lia. }
  change (ls_layout dst_state) with L_TRANSFER_DST in *.
  (* blit *)
  assert (NE : forall l', ~ (i_id im = i_id im /\ l' = layer /\ mip - 1 = mip)) by (intros; lia).
  destruct (S1 (i_id im) layer (mip - 1)) as [S1l S1c]; [lia|].
  destruct (blit_step im layer mip d1 H1) as (d2 & X2 & S2 & L2 & C2); [congruence|assumption|].
  destruct (S2 (i_id im) layer (mip - 1)) as [S2l S2c]; [lia|].
  (* previous level to next *)
  destruct (barrier_step e im vt layer (mip - 1) L_TRANSFER_SRC next c1 d2 B) as (c3 & l3 & d3 & E3 & X3 & S3 & L3 & C3 & K3 & F3).
  { lia. } { assumption. } { cbv zeta. right. rewrite F1 by lia. rewrite HK. congruence. }
  destruct (S3 (i_id im) layer mip) as [S3l S3c]; [lia|].
  assert (C3' : d_content d3 (i_id im) layer (mip - 1) = reduced (mip - 1) c0).
  { rewrite C3; [congruence|]. rewrite F1 by lia. rewrite HK. discriminate. }
  cbn [mip_loop].
  assert (Hfirst : (level_barrier e im vt layer mip L_UNDEFINED dst_state c
      >>> emit [CBlitImage (i_id im) L_TRANSFER_SRC (i_id im) L_TRANSFER_DST
                  (LR im layer (mip - 1)) (LR im layer mip) (0, 0, 0) (level_dims im (mip - 1)) (0, 0, 0) (level_dims im mip) FILTER_LINEAR]
      >>> level_barrier e im vt layer (mip - 1) L_TRANSFER_SRC next) = (c3, (l1 ++ [CBlitImage (i_id im) L_TRANSFER_SRC (i_id im) L_TRANSFER_DST
                  (LR im layer (mip - 1)) (LR im layer mip) (0, 0, 0) (level_dims im (mip - 1)) (0, 0, 0) (level_dims im mip) FILTER_LINEAR]) ++ l3)
      /\ execute_all im d ((l1 ++ [CBlitImage (i_id im) L_TRANSFER_SRC (i_id im) L_TRANSFER_DST
                  (LR im layer (mip - 1)) (LR im layer mip) (0, 0, 0) (level_dims im (mip - 1)) (0, 0, 0) (level_dims im mip) FILTER_LINEAR]) ++ l3) = Some d3).
  { eapply seq_exec; [|apply (proj2 (seq_exec im d d1 d2 c1 l1 c1 _ _ (emit _) E1 X1 eq_refl X2))|exact E3|exact X3].
    apply (proj1 (seq_exec im d d1 d2 c1 l1 c1 _ _ (emit _) E1 X1 eq_refl X2)). }
  destruct Hfirst as [Ef Xf]. rewrite Ef. clear Ef.
  set (lf := (l1 ++ _) ++ l3) in *. clearbody lf.
  assert (KC : ls_layout (K c3 im vt layer mip L_TRANSFER_DST) = L_TRANSFER_DST).
  { rewrite F3 by lia. exact K1. }
  assert (LC : d_layout d3 (i_id im) layer mip = L_TRANSFER_DST) by congruence.
  assert (CC : d_content d3 (i_id im) layer mip = reduced mip c0).
  { rewrite S3c, C2, S1c, Hcon. symmetry. apply reduced_succ. exact H1. }
  assert (FR3 : forall i l m, ~ (i = i_id im /\ l = layer /\ mip - 1 <= m <= mip) -> d_layout d3 i l m = d_layout d i l m /\ d_content d3 i l m = d_content d i l m).
  { intros i l m Hne. destruct (S1 i l m) as [? ?]; [lia|]. destruct (S2 i l m) as [? ?]; [lia|]. destruct (S3 i l m) as [? ?]; [lia|]. split; congruence. }
  assert (FK3 : forall layer' mip' i, layer' < 2 ^ 32 -> mip' < 2 ^ 31 -> ~ (mip - 1 <= mip' <= mip) \/ (vt <> VT_3D /\ layer <> layer') -> K c3 im vt layer' mip' i = K c im vt layer' mip' i).
  { intros layer' mip' i Hl' Hm' Hd. rewrite F3, F1; try assumption; [reflexivity| |]; destruct Hd as [|[? ?]]; try tauto; left; lia. }
  destruct (N.eqb_spec mip (i_levels im - 1)) as [Elast|Elast].
  - (* last level *)
    destruct n as [|n]; [|lia].
    destruct (barrier_step e im vt layer mip L_TRANSFER_DST next c3 d3 B) as (c4 & l4 & d4 & E4 & X4 & S4 & L4 & C4 & K4 & F4).
    { lia. } { assumption. } { cbv zeta. right. rewrite KC. congruence. }
    cbn [mip_loop]. cbn [seq2]. rewrite E4. cbn [seq2]. rewrite app_nil_r.
    exists c4, (lf ++ l4), d4. split; [reflexivity|]. split; [rewrite execute_app, Xf; exact X4|]. split; [|split].
    + intros m Hm. destruct (N.eq_dec m mip) as [->|Nm].
      * split; [exact L4|]. split; [|exact K4]. rewrite C4; [exact CC|]. rewrite KC. discriminate.
      * assert (m = mip - 1) as -> by lia. destruct (S4 (i_id im) layer (mip - 1)) as [S4l S4c]; [lia|].
        split; [congruence|]. split; [congruence|]. rewrite F4 by lia. exact K3.
    + intros i l m Hne. destruct (S4 i l m) as [? ?]; [lia|]. destruct (FR3 i l m) as [? ?]; [lia|]. split; congruence.
    + intros layer' mip' i Hl' Hm' Hd. rewrite F4, FK3; try assumption; [reflexivity| |]; destruct Hd as [|[? ?]]; try tauto; left; lia.
  - (* another iteration *)
    destruct (barrier_step e im vt layer mip L_TRANSFER_DST src_state_again c3 d3 B) as (c4 & l4 & d4 & E4 & X4 & S4 & L4 & C4 & K4 & F4).
    { lia. } { discriminate. } { cbv zeta. right. rewrite KC. congruence. }
    change (ls_layout src_state_again) with L_TRANSFER_SRC in *.
    assert (Xf4 : execute_all im d (lf ++ l4) = Some d4) by (rewrite execute_app, Xf; exact X4).
    destruct (IH (mip + 1) c4 d4) as (c5 & l5 & d5 & E5 & X5 & R5 & FR5 & FK5).
    { lia. } { lia. } { lia. }
    { replace (mip + 1 - 1) with mip by lia. exact K4. }
    { replace (mip + 1 - 1) with mip by lia. exact L4. }
    { replace (mip + 1 - 1) with mip by lia. rewrite C4; [exact CC|]. rewrite KC. discriminate. }
    { intros m Hm. unfold agr. rewrite F4, FK3 by lia.
      assert (d_layout d4 (i_id im) layer m = d_layout d (i_id im) layer m) as ->.
      { destruct (S4 (i_id im) layer m) as [? _]; [lia|]. destruct (FR3 (i_id im) layer m) as [? _]; [lia|]. congruence. }
      apply Hagr. lia. }
    cbn [seq2]. rewrite E4. cbn [seq2]. rewrite E5. exists c5, ((lf ++ l4) ++ l5), d5.
    split; [reflexivity|]. split; [rewrite execute_app, Xf4; exact X5|]. replace (mip + 1 - 1) with mip in * by lia. split; [|split].
    + intros m Hm. destruct (N.le_gt_cases mip m) as [Hge|Hlt]; [apply R5; lia|].
      assert (m = mip - 1) as -> by lia. destruct (FR5 (i_id im) layer (mip - 1)) as [? ?]; [lia|].
      destruct (S4 (i_id im) layer (mip - 1)) as [? ?]; [lia|]. split; [congruence|]. split; [congruence|].
      rewrite FK5, F4 by lia. exact K3.
    + intros i l m Hne. destruct (FR5 i l m) as [? ?]; [lia|]. destruct (S4 i l m) as [? ?]; [lia|]. destruct (FR3 i l m) as [? ?]; [lia|]. split; congruence.
    + intros layer' mip' i Hl' Hm' Hd. rewrite FK5, F4, FK3; try assumption; [reflexivity| | |]; destruct Hd as [|[? ?]]; try tauto; left; lia.
Qed.

(* ---- one layer ---- *)

Lemma vt_virtual im vt vt' r : (vt = VT_3D <-> vt' = VT_3D) -> getVirtualRange im vt r = getVirtualRange im vt' r.
Proof.
  intro H. unfold getVirtualRange. destruct (N.eqb_spec vt VT_3D), (N.eqb_spec vt' VT_3D); try reflexivity; tauto.
Qed.
Lemma vt_get h im vt vt' r : (vt = VT_3D <-> vt' = VT_3D) -> getLayoutState h im vt r = getLayoutState h im vt' r.
Proof. intro H. unfold getLayoutState. rewrite (vt_virtual im vt vt' r H). reflexivity. Qed.
Lemma vt_set h im vt vt' r s : (vt = VT_3D <-> vt' = VT_3D) -> setLayoutState h im vt r s = setLayoutState h im vt' r s.
Proof. intro H. unfold setLayoutState. rewrite (vt_virtual im vt vt' r H). reflexivity. Qed.
Lemma vt_current g c im vt vt' r : (vt = VT_3D <-> vt' = VT_3D) -> getCurrentLayoutState g c im vt r = getCurrentLayoutState g c im vt' r.
Proof.
  intro H. unfold getCurrentLayoutState, rc_getLayoutState, rc_setLayoutState.
  rewrite !(vt_get _ im vt vt' r H). rewrite !(vt_set _ im vt vt' r _ H). reflexivity.
Qed.

Lemma K_undefined c im vt layer mip : ls_layout (K c im vt layer mip L_UNDEFINED) = ls_layout (rc_getLayoutState c im vt (LR im layer mip)).
Proof. unfold K, known_state. destruct (N.eqb_spec (ls_layout (rc_getLayoutState c im vt (LR im layer mip))) L_UNDEFINED) as [E|E]; [rewrite E|]; reflexivity. Qed.

Lemma said_K g c c' im vt layer mip : (forall i, K c' im vt layer mip i = K c im vt layer mip i) -> said_layout g c' im vt layer mip = said_layout g c im vt layer mip.
Proof.
  intro H. specialize (H L_UNDEFINED). apply (f_equal ls_layout) in H. rewrite !K_undefined in H.
  unfold said_layout, getCurrentLayoutState. rewrite <- H.
  destruct (negb _); [exact H|].
  destruct (negb (N.eqb (ls_layout (getLayoutState (g_inputs g) im vt (LR im layer mip))) L_UNDEFINED)); [reflexivity|].
  destruct (negb _); reflexivity.
Qed.

Lemma current_level g c im vt layer : bounds im vt layer ->
  said_layout g c im vt layer 0 <> L_UNDEFINED ->
  exists c' first, getCurrentLayoutState g c im vt (LR im layer 0) = (c', first) /\ ls_layout first = said_layout g c im vt layer 0 /\
    ls_layout (K c' im vt layer 0 (ls_layout first)) = ls_layout first /\
    (forall layer' mip' i, layer' < 2 ^ 32 -> mip' < 2 ^ 31 -> 0 <> mip' \/ (vt <> VT_3D /\ layer <> layer') ->
        K c' im vt layer' mip' i = K c im vt layer' mip' i).
Proof.
  intros [Bd Bl Bn] Hs. unfold said_layout in *. destruct (getCurrentLayoutState g c im vt (LR im layer 0)) as [c' first] eqn:E.
  cbn [snd] in Hs. exists c', first. split; [reflexivity|]. cbn [snd]. split; [reflexivity|].
  assert (Q : forall s, ls_layout s <> L_UNDEFINED -> ls_layout (K (rc_setLayoutState c im vt (LR im layer 0) s) im vt layer 0 (ls_layout s)) = ls_layout s).
  { intros s Hs'. destruct (N.eq_dec vt VT_3D) as [E3|E3].
    - destruct (N.eq_dec (N.shiftr (i_depth im) 0) 0) as [Z|Z].
      + rewrite K_untracked; [reflexivity|]. intro X. specialize (X E3). lia.
      + rewrite K_same; [reflexivity|lia|lia|lia|intro; lia|assumption].
    - rewrite K_same; [reflexivity|lia|lia|lia|intro; contradiction|assumption]. }
  unfold getCurrentLayoutState in E.
  destruct (negb (N.eqb (ls_layout (rc_getLayoutState c im vt (LR im layer 0))) L_UNDEFINED)) eqn:E0.
  { injection E as <- <-. split; [|reflexivity]. unfold K, known_state. destruct (N.eqb _ _); reflexivity. }
  destruct (negb (N.eqb (ls_layout (getLayoutState (g_inputs g) im vt (LR im layer 0))) L_UNDEFINED)) eqn:E1.
  { injection E as <- <-. split; [apply Q; exact Hs|]. intros. apply K_other; try assumption; lia. }
  destruct (negb (N.eqb (ls_layout (rc_getLayoutState (g_final g) im vt (LR im layer 0))) L_UNDEFINED)) eqn:E2.
  { injection E as <- <-. split; [apply Q; exact Hs|]. intros. apply K_other; try assumption; lia. }
  injection E as <- <-. exfalso. rewrite negb_false_iff, N.eqb_eq in E2. contradiction.
Qed.

Lemma mip_layer_ok e g v itype next layer c d : let im := v_image v in
  (itype = VT_3D <-> v_type v = VT_3D) -> bounds im itype layer -> 2 <= i_levels im -> ls_layout next <> L_UNDEFINED ->
  said_layout g c im itype layer 0 = d_layout d (i_id im) layer 0 -> d_layout d (i_id im) layer 0 <> L_UNDEFINED ->
  (forall mip, 1 <= mip < i_levels im -> agr c d im itype layer mip) ->
  exists c' l d', mip_layer e g v itype next layer c = (c', l) /\ execute_all im d l = Some d' /\
    (forall m, m < i_levels im -> d_layout d' (i_id im) layer m = ls_layout next /\ d_content d' (i_id im) layer m = reduced m (d_content d (i_id im) layer 0) /\
        ls_layout (K c' im itype layer m (ls_layout next)) = ls_layout next) /\
    (forall i l m, ~ (i = i_id im /\ l = layer /\ m < i_levels im) -> d_layout d' i l m = d_layout d i l m /\ d_content d' i l m = d_content d i l m) /\
    (forall layer' mip' i, layer' < 2 ^ 32 -> mip' < 2 ^ 31 -> i_levels im <= mip' \/ (itype <> VT_3D /\ layer <> layer') ->
        K c' im itype layer' mip' i = K c im itype layer' mip' i).
Proof.
  intros im H3 B Hlev Hnx Hs Hd Hagr. pose proof B as [Bd Bl Bn].
  unfold mip_layer. fold im. rewrite (vt_current g c im (v_type v) itype) by tauto.
  destruct (current_level g c im itype layer B) as (c1 & first & E1 & F1 & K1 & FK1); [congruence|]. rewrite E1.
  destruct (barrier_step e im itype layer 0 (ls_layout first) src_state c1 d B) as (c2 & l2 & d2 & E2 & X2 & S2 & L2 & C2 & K2 & FK2).
  { lia. } { discriminate. } { cbv zeta. right. congruence. }
  change (ls_layout src_state) with L_TRANSFER_SRC in *.
  destruct (mip_loop_ok e im itype layer next (d_content d (i_id im) layer 0) B Hnx (N.to_nat (i_levels im - 1)) 1 c2 d2)
    as (c3 & l3 & d3 & E3 & X3 & R3 & FR3 & FK3); try lia.
  { exact K2. } { exact L2. } { cbn. apply C2. congruence. }
  { intros m Hm. unfold agr. rewrite FK2, FK1 by lia. destruct (S2 (i_id im) layer m) as [-> _]; [lia|]. apply Hagr. lia. }
  change (1 - 1) with 0 in *.
  rewrite E2. cbn [seq2]. rewrite E3. exists c3, (l2 ++ l3), d3. split; [reflexivity|].
  split; [rewrite execute_app, X2; exact X3|]. split; [|split].
  - intros m Hm. apply R3. lia.
  - intros i l m Hne. destruct (FR3 i l m) as [? ?]; [lia|]. destruct (S2 i l m) as [? ?]; [lia|]. split; congruence.
  - intros layer' mip' i Hl' Hm' Hx. rewrite FK3, FK2, FK1; try assumption; [reflexivity| | |]; destruct Hx as [|[? ?]]; try tauto; left; lia.
Qed.

(* ---- all the layers ---- *)

Definition informed_layer (g : rgraph) (c : rctx) (d : device) (v : view) itype layer : Prop :=
  let im := v_image v in
  said_layout g c im itype layer 0 = d_layout d (i_id im) layer 0 /\ d_layout d (i_id im) layer 0 <> L_UNDEFINED /\
  (forall mip, 1 <= mip < i_levels im -> agr c d im itype layer mip).

Lemma layers_ok e g v itype next : let im := v_image v in
  (itype = VT_3D <-> v_type v = VT_3D) -> i_depth im < 2 ^ 31 -> 2 <= i_levels im <= 32 -> ls_layout next <> L_UNDEFINED ->
  forall layers c d, NoDup layers -> (itype = VT_3D -> (length layers <= 1)%nat) -> (forall l, In l layers -> l < 2 ^ 32) ->
  (forall l, In l layers -> informed_layer g c d v itype l) ->
  exists c' l d', run_all (mip_layer e g v itype next) layers c = (c', l) /\ execute_all im d l = Some d' /\
    (forall layer m, In layer layers -> m < i_levels im -> d_layout d' (i_id im) layer m = ls_layout next /\ d_content d' (i_id im) layer m = reduced m (d_content d (i_id im) layer 0) /\
        ls_layout (K c' im itype layer m (ls_layout next)) = ls_layout next) /\
    (forall i l m, ~ (i = i_id im /\ In l layers /\ m < i_levels im) -> d_layout d' i l m = d_layout d i l m /\ d_content d' i l m = d_content d i l m) /\
    (forall layer' mip' i, layer' < 2 ^ 32 -> mip' < 2 ^ 31 -> i_levels im <= mip' \/ (itype <> VT_3D /\ ~ In layer' layers) ->
        K c' im itype layer' mip' i = K c im itype layer' mip' i).
Proof.
  intros im H3 Hdp Hlev Hnx. induction layers as [|layer layers IH]; intros c d Hnd H1 Hb Hinf.
  - exists c, [], d. split; [reflexivity|]. split; [reflexivity|]. split; [intros ? ? []|]. split; [tauto|reflexivity].
  - inversion Hnd as [|? ? Hni Hnd']; subst.
    assert (B : bounds im itype layer) by (constructor; [assumption|apply Hb; left; reflexivity|lia]).
    destruct (Hinf layer (or_introl eq_refl)) as (I1 & I2 & I3).
    destruct (mip_layer_ok e g v itype next layer c d H3 B) as (c1 & l1 & d1 & E1 & X1 & R1 & FR1 & FK1); try assumption; [apply Hlev|].
    fold im in E1, X1, R1, FR1, FK1.
    destruct (IH c1 d1) as (c2 & l2 & d2 & E2 & X2 & R2 & FR2 & FK2); try assumption.
    + intro X. specialize (H1 X). cbn [length] in H1. lia.
    + intros l Hl. apply Hb. right. exact Hl.
    + intros l Hl. destruct (Hinf l (or_intror Hl)) as (J1 & J2 & J3). fold im in J1, J2, J3.
      assert (Nl : layer <> l) by (intro; subst; contradiction).
      assert (N3 : itype <> VT_3D). { intro X. specialize (H1 X). destruct layers; [destruct Hl|cbn [length] in H1; lia]. }
      assert (Hl32 : l < 2 ^ 32) by (apply Hb; right; exact Hl).
      unfold informed_layer. fold im. split; [|split].
      * rewrite (said_K g c c1); [|intro; apply FK1; [assumption|lia|right; split; assumption]].
        destruct (FR1 (i_id im) l 0) as [-> _]; [intros (_ & ? & _); congruence|]. exact J1.
      * destruct (FR1 (i_id im) l 0) as [-> _]; [intros (_ & ? & _); congruence|]. exact J2.
      * intros mip Hm. unfold agr. rewrite FK1; [|assumption|lia|right; split; assumption].
        destruct (FR1 (i_id im) l mip) as [-> _]; [intros (_ & ? & _); congruence|]. apply J3. exact Hm.
    + rewrite run_all_cons, E1. cbn [seq2]. rewrite E2. exists c2, (l1 ++ l2), d2.
      split; [reflexivity|]. split; [rewrite execute_app, X1; exact X2|]. split; [|split].
      * intros la m [<-|Hin] Hm.
        -- destruct (FR2 (i_id im) layer m) as [-> ->]; [tauto|]. destruct (R1 m Hm) as (Ra & Rb & Rc). split; [assumption|]. split; [assumption|].
           destruct (N.eq_dec itype VT_3D) as [X|X].
           ++ specialize (H1 X). destruct layers; [|cbn [length] in H1; lia]. cbn in E2. injection E2 as <- _. assumption.
           ++ rewrite FK2; [assumption|apply Hb; left; reflexivity|lia|right; split; assumption].
        -- destruct (R2 la m Hin Hm) as (Ra & Rb & Rc). split; [assumption|]. split; [|assumption]. rewrite Rb.
           destruct (FR1 (i_id im) la 0) as [_ ->]; [intros (_ & ? & _); subst; contradiction|reflexivity].
      * intros i l m Hne. cbn [In] in Hne. destruct (FR2 i l m) as [? ?]; [tauto|]. destruct (FR1 i l m) as [? ?]; [intuition|]. split; congruence.
      * intros layer' mip' i Hl' Hm' Hx. cbn [In] in Hx. rewrite FK2, FK1; try assumption; [reflexivity| |]; destruct Hx as [|[? ?]]; tauto.
Qed.

Lemma mips_ok e g p v itype c d : let im := v_image v in let next := getNextLayoutState e g c p v in
  mips_view_ok v itype -> 2 <= i_levels im -> ls_layout next <> L_UNDEFINED -> informed g c d v ->
  exists c' l d', generate_mips e g p v itype c = (c', l) /\ execute_all im d l = Some d' /\
    (forall layer m, r_layer (v_range v) <= layer < r_layer (v_range v) + r_layers (v_range v) -> m < i_levels im ->
        d_layout d' (i_id im) layer m = ls_layout next /\ d_content d' (i_id im) layer m = reduced m (d_content d (i_id im) layer 0)) /\
    (forall i l m, ~ (i = i_id im /\ r_layer (v_range v) <= l < r_layer (v_range v) + r_layers (v_range v) /\ m < i_levels im) ->
        d_layout d' i l m = d_layout d i l m /\ d_content d' i l m = d_content d i l m) /\
    (forall layer m, r_layer (v_range v) <= layer < r_layer (v_range v) + r_layers (v_range v) -> m < i_levels im ->
        let k := ls_layout (rc_getLayoutState c' im (v_type v) (LR im layer m)) in k = L_UNDEFINED \/ k = ls_layout next).
Proof.
  intros im next (H3 & H3l & Hb & Hl & Hw & Hh & Hd) H2 Hnx Hinf.
  set (layers := map (fun i => r_layer (v_range v) + i) (iota (r_layers (v_range v)))).
  assert (IL : forall l, In l layers <-> r_layer (v_range v) <= l < r_layer (v_range v) + r_layers (v_range v)).
  { intro l. unfold layers. rewrite in_map_iff. split.
    - intros (i & <- & Hi). apply in_iota in Hi. lia.
    - intro Hr. exists (l - r_layer (v_range v)). split; [lia|]. apply in_iota. lia. }
  destruct (layers_ok e g v itype next H3 Hd (conj H2 (proj2 Hl)) Hnx layers c d) as (c' & l & d' & E & X & R & FR & FK).
  - unfold layers. apply FinFun.Injective_map_NoDup; [intros a b; lia|].
    unfold iota. apply FinFun.Injective_map_NoDup; [intros a b; lia|apply seq_NoDup].
  - intro Q. specialize (H3l Q). unfold layers, iota. rewrite !map_length, seq_length. lia.
  - intros la Hin. apply IL in Hin. lia.
  - intros la Hin. apply IL in Hin. destruct (Hinf la Hin) as (J1 & J2 & J3). fold im in J1, J2, J3. unfold informed_layer. fold im.
    split; [|split; [assumption|]].
    + unfold said_layout in *. rewrite (vt_current g c im itype (v_type v)) by tauto. exact J1.
    + intros mip Hm. specialize (J3 mip Hm). cbv zeta in J3. unfold agr. rewrite K_undefined. unfold rc_getLayoutState in *.
      rewrite (vt_get _ im itype (v_type v)) by tauto. exact J3.
  - exists c', l, d'. split; [exact E|]. split; [exact X|]. split; [|split].
    + intros layer m Hla Hm. destruct (R layer m (proj2 (IL layer) Hla) Hm) as (? & ? & _). auto.
    + intros i la m Hne. apply FR. rewrite IL. exact Hne.
    + intros layer m Hla Hm. destruct (R layer m (proj2 (IL layer) Hla) Hm) as (_ & _ & Q). fold im in Q.
      cbv zeta. unfold rc_getLayoutState. rewrite (vt_get _ im (v_type v) itype) by tauto.
      unfold K, known_state, rc_getLayoutState in Q.
      destruct (N.eqb_spec (ls_layout (getLayoutState (rc_images c') im itype (LR im layer m))) L_UNDEFINED); [left; assumption|right; exact Q].
Qed.
