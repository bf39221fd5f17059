(* Proofs about the sizes of mip levels. *)
From Verif Require Import Spec_Extent Spec_Record Proof_Layout Proof_Record.
From Coq Require Import Lia List.
Import ListNotations.
Local Open Scope N_scope.

Lemma level_size_shift size : 0 < size -> forall level, level_size size level = N.max 1 (N.shiftr size (N.of_nat level)).
Proof.
  intros Hs. induction level as [|l IH]; [cbn [level_size N.of_nat]; rewrite N.shiftr_0_r; lia|].
  cbn [level_size]. rewrite IH. rewrite !N.shiftr_div_pow2. rewrite Nnat.Nat2N.inj_succ, N.pow_succ_r'.
  rewrite (N.mul_comm 2), <- N.div_div by (try apply N.pow_nonzero; lia).
  set (q := size / 2 ^ N.of_nat l). destruct (N.eq_dec q 0) as [->|Hq]; [reflexivity|].
  rewrite (N.max_r 1 q) by lia. reflexivity.
Qed.
Lemma shift_small size level : N.shiftr size level = 0 <-> size < 2 ^ level.
Proof. rewrite N.shiftr_div_pow2. rewrite N.div_small_iff by (apply N.pow_nonzero; lia). reflexivity. Qed.
Lemma mip_dim size level : 0 < size -> 
  N.shiftr size level = if N.ltb size (2 ^ level) then 0 else level_size size (N.to_nat level).
Proof.
  intro H. rewrite level_size_shift by exact H. rewrite Nnat.N2Nat.id. pose proof (shift_small size level) as S.
  destruct (N.ltb_spec size (2 ^ level)) as [L|L].
  - apply S. exact L.
  - assert (N.shiftr size level <> 0) by (intro E; apply S in E; lia). lia.
Qed.

(* A level of a 3D image whose depth shifts to nothing: nothing is ever known of it. *)
Lemma small_level_unknown h im r : r_levels r = 1 -> i_depth im < 2 ^ r_mip r ->
  ls_layout (getLayoutState h im VT_3D r) = L_UNDEFINED.
Proof.
  intros L D. unfold getLayoutState. destruct (mfind (i_id im) h) as [m|]; [|reflexivity].
  assert (Z : N.shiftr (i_depth im) (r_mip r) = 0) by (apply shift_small; exact D).
  unfold getVirtualRange. rewrite L. cbn [orb andb N.eqb]. change (N.eqb VT_3D VT_3D) with true. cbn [andb]. rewrite Z. reflexivity.
Qed.
Lemma small_level_current g c im r : r_levels r = 1 -> i_depth im < 2 ^ r_mip r ->
  exists cur, getCurrentLayoutState g c im VT_3D r = (c, cur) /\ ls_layout cur = L_UNDEFINED.
Proof.
  intros L D. unfold getCurrentLayoutState, rc_getLayoutState. rewrite !(small_level_unknown _ im r L D).
  change (N.eqb L_UNDEFINED L_UNDEFINED) with true. cbn [negb]. eexists. split; [reflexivity|]. apply small_level_unknown; assumption.
Qed.
Lemma small_level_barrier sep c im r l wanted : r_levels r = 1 -> i_depth im < 2 ^ r_mip r ->
  ls_layout wanted <> L_UNDEFINED -> ps_stage (ls_state wanted) <> S_HOST -> l = L_UNDEFINED -> isDepthStencilFormat (i_format im) = false ->
  snd (memoryBarrier sep c im VT_3D r l wanted false) =
    [CImageBarrier (i_id im) r S_HOST (ps_stage (ls_state wanted)) 0 (ps_access (ls_state wanted)) L_UNDEFINED (ls_layout wanted)].
Proof.
  intros L D W S -> F. unfold memoryBarrier.
  assert (A : adaptRange sep (i_format im) r = r) by (unfold adaptRange; rewrite F, Bool.andb_false_r; reflexivity).
  rewrite A. unfold rc_getLayoutState. rewrite (small_level_unknown _ im r L D). cbv zeta. 
  rewrite N.eqb_refl. cbn iota.
  change (ls_layout (makeLayoutState L_UNDEFINED)) with L_UNDEFINED. change (ps_stage (ls_state (makeLayoutState L_UNDEFINED))) with S_HOST.
  change (ps_access (ls_state (makeLayoutState L_UNDEFINED))) with 0.
  destruct (N.eqb_spec L_UNDEFINED (ls_layout wanted)) as [E|_]; [congruence|].
  destruct (N.eqb_spec S_HOST (ps_stage (ls_state wanted))) as [E|_]; [congruence|].
  destruct (N.eqb_spec (ls_layout wanted) L_UNDEFINED) as [E|_]; [congruence|]. reflexivity.
Qed.
