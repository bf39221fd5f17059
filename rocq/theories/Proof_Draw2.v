(* Quad and mesh passes: the render pass and the pipelines, over histories. *)
From Verif Require Import Proof_Device3 Proof_Pipe11 Proof_Target Proof_Target2 Proof_Target3 Spec_Draw Proof_Draw.
From Coq Require Import Lia PeanoNat ZArith List.
Import ListNotations.
Local Open Scope N_scope.

Lemma states_app l1 l2 h : states_of (l1 ++ l2) h = match states_of l1 h with Some s => Some s | None => states_of l2 h end.
Proof. induction l1 as [|[h' s] l1 IH]; [reflexivity|]. cbn [app states_of]. destruct (N.eqb h h'); [reflexivity|exact IH]. Qed.
Lemma described_same es h y (s : gpipe) : made_as es h = Some y -> states_of (map (fun h => (h, s)) (pipelines_of es)) h = Some s.
Proof.
  induction es as [|e es IH]; [discriminate|]. destruct e; cbn [made_as]; try exact IH. cbn [pipelines_of flat_map app map states_of]. destruct (N.eqb h h0); [reflexivity|exact IH].
Qed.
Lemma described_states l h (s s' : gpipe) : states_of (map (fun h => (h, s)) l) h = Some s' -> s' = s.
Proof. induction l as [|x l IH]; [discriminate|]. cbn [map states_of]. destruct (N.eqb h x); [congruence|exact IH]. Qed.
Lemma described_ext d d' es s : dr_log d' = dr_log d ++ es -> described s d d' = map (fun h => (h, s)) (pipelines_of es).
Proof. intro E. unfold described. rewrite E, skipn_app, skipn_all, Nat.sub_diag. reflexivity. Qed.

(* the states every pipeline must have *)
Definition right (k : pass_kind) (images : list attach) (size : N * N) (position : Z * Z) (cull : N) (s : gpipe) : Prop :=
  gp_viewport s = (position, size) /\ gp_scissor s = (position, size) /\ gp_blend s = map ia_misc (colours images).
Definition fixed (k : pass_kind) (cull : N) (s : gpipe) : Prop :=
  gp_topology s = match k with Quad => TOPOLOGY_STRIP | _ => TOPOLOGY_LIST end /\ gp_cull s = match k with Quad => 0 | _ => cull end.
Record DI (k : pass_kind) (programs count : nat) (images buffers : list attach) (creator : option (nat -> N)) (size : N * N) (position : Z * Z) (cull : N) (x : drawer) : Prop := {
  di_lives : lives (dw_target x);
  di_kept : kept images size (dw_target x);
  di_len : length (tg_passes (dw_target x)) = count;
  di_col : coloured images (dw_target x);
  di_pass : pass_good (dw_driver x) (dw_pass x);
  di_kind : pp_kind (dw_pass x) = k;
  di_sets : length (ho_sets (pp_holder (dw_pass x))) = count;
  di_programs : ho_programs (pp_holder (dw_pass x)) = programs;
  di_pos : dw_position x = position;
  di_keys : forall h y, made_as (dr_log (dw_driver x)) h = Some y -> exists s, states_of (dw_made x) h = Some s;
  di_all : forall h s, states_of (dw_made x) h = Some s -> right k images size position cull s /\ fixed k cull s;
  di_fixed : fixed k cull (dw_states x);
  di_rp : pp_renderPass (dw_pass x) < tg_nexth (dw_target x);
  di_states : pp_prepared (dw_pass x) = true -> right k images size position cull (dw_states x);
  di_slots : forall i, (i < count)%nat -> rd_renderPass (pass_data (dw_target x) i) <> 0 -> pp_prepared (dw_pass x) = true /\
     ho_pipeline (pp_holder (dw_pass x)) i <> 0 /\
     exists program l, made_as (dr_log (dw_driver x)) (ho_pipeline (pp_holder (dw_pass x)) i) = Some (program, rd_renderPass (pass_data (dw_target x) i), l);
  di_single : count = 1%nat -> pp_prepared (dw_pass x) = true -> rd_renderPass (pass_data (dw_target x) 0) = pp_renderPass (dw_pass x) }.

Section Hist.
Variables (k : pass_kind) (programs count : nat) (images buffers : list attach) (creator : option (nat -> N)) (size : N * N) (position : Z * Z) (cull : N).
Hypothesis kd : k = Quad \/ k = Mesh.
Notation DI' := (DI k programs count images buffers creator size position cull).
Lemma not_compute : k <> Compute. Proof. destruct kd; subst; discriminate. Qed.

Lemma new_DI : (programs = 1%nat \/ (count <= programs)%nat) -> (1 <= programs)%nat -> creator_ok programs count creator ->
  DI' (new_drawer k programs count images buffers creator size position cull).
Proof.
  intros H1 H2 Hc. pose proof (new_lives size count) as L.
  assert (E : forall i, rd_renderPass (pass_data (new_target size count) i) = 0).
  { intro i. unfold pass_data. cbn [new_target tg_passes]. generalize count. induction i; intros [|n]; try reflexivity. cbn. apply IHi. }
  destruct (WG_step new_pworld (ONew 0 0 k programs count images buffers creator) _ WG_new (conj H1 H2) Hc) as [[_ W] _].
  destruct (W 0 _ eq_refl) as [P _].
  constructor; cbn [new_drawer dw_target dw_driver dw_pass dw_position dw_states dw_made].
  - exact L.
  - apply new_kept.
  - cbn. apply repeat_length.
  - intros r info [].
  - exact P.
  - reflexivity.
  - cbn. apply repeat_length.
  - reflexivity.
  - reflexivity.
  - intros h y X. discriminate X.
  - intros h s X. discriminate X.
  - split; reflexivity.
  - cbn. lia.
  - discriminate.
  - intros i _ X. rewrite E in X. contradiction.
  - discriminate.
Qed.


(* the parts of a recording *)
Definition with_body (u : use) (body : rctx -> nat -> rctx * list cmd) : use :=
  {| us_env := us_env u; us_graph := us_graph u; us_pass := us_pass u; us_body := body; us_ctx := us_ctx u |}.
Definition first_states (x : drawer) (u : use) : gpipe :=
  let '(t1, _, _) := tg_initialise (us_env u) (us_graph u) (us_pass u) (rp_index (us_pass u)) (dw_target x) (us_ctx u) in
  match remade x u with
  | Some rp => if prepares (dw_pass x) rp then Model_Draw.prepare (dw_position x) (tg_size t1) (tg_blend t1) (dw_states x) else dw_states x
  | None => dw_states x
  end.
Lemma record_parts u w ending x : let i := rp_index (us_pass u) in let x' := fst (draw_record u w ending x) in
  let r := pass_record i (remade x u) (dw_driver x) (dw_pass x) in
  dw_driver x' = fst (fst r) /\ dw_pass x' = snd (fst r) /\ dw_position x' = dw_position x /\ dw_states x' = first_states x u /\
  dw_made x' = dw_made x ++ described (first_states x u) (dw_driver x) (fst (fst r)) /\
  exists body, dw_target x' = use_target (dw_target x) (with_body u body) /\
    (exists c0 c, snd (draw_record u w ending x) =
      ((c, CBeginRenderPass (begun (pass_data (dw_target x') i)) ::
        (bind_cmds (snd r) (nth i (ho_sets (pp_holder (snd (fst r)))) 0) ++ snd (us_body u c0 i) ++ draw_cmds w i) ++ 
        [CEndRenderPass (begun (pass_data (dw_target x') i))]) >>> (fun c => ending c i))).
Proof.
  intros i x' r. unfold x', draw_record, first_states. fold i. fold r. destruct r as [[d p] h]. cbn [fst snd].
  destruct (tg_initialise (us_env u) (us_graph u) (us_pass u) i (dw_target x) (us_ctx u)) as [[t1 c1] m] eqn:E1.
  set (body := fun (c : rctx) (i : nat) => (c, bind_cmds h (nth i (ho_sets (pp_holder p)) 0)) >>> (fun c => us_body u c i) >>> emit (draw_cmds w i)).
  destruct (tg_record (us_env u) (us_graph u) (us_pass u) i body (dw_target x) (us_ctx u)) as [[t c] l] eqn:E2.
  cbn [fst snd dw_driver dw_pass dw_position dw_states dw_made dw_target].
  do 5 (split; [reflexivity|]). exists body. split; [unfold use_target, with_body; cbn; fold i; rewrite E2; reflexivity|].
  unfold tg_record in E2. rewrite E1 in E2. destruct (tg_begin i t1 c1) as [t2 c2].
  destruct (body c2 i) as [c3 l3] eqn:E3. unfold tg_end in E2. injection E2 as <- <- <-.
  exists c2. unfold body in E3. unfold ">>>" in E3. destruct (us_body u c2 i) as [c4 l4] eqn:E4. unfold emit in E3. injection E3 as _ <-.
  rewrite emit_data. eexists. unfold bind_cmds. cbn [snd app]. rewrite <- ?app_assoc. reflexivity.
Qed.
Lemma more_made l es h y : made_as l h = Some y -> made_as (l ++ es) h = Some y.
Proof. intro E. rewrite made_as_app, E. reflexivity. Qed.
Lemma no_made_pipelines es : no_made es = true -> pipelines_of es = [].
Proof. induction es as [|e es IH]; [reflexivity|]. destruct e; cbn; intro H; try discriminate; apply IH; exact H. Qed.

Lemma record_DI u w ending x : DI' x -> op_of_pass images count (DwRecord u w ending) -> (count = 1%nat \/ (k = Quad /\ programs <> 1%nat)) ->
  let x' := fst (draw_record u w ending x) in let i := rp_index (us_pass u) in
  DI' x' /\ rd_renderPass (pass_data (dw_target x') i) <> 0 /\ coloured images (dw_target x') /\
  begun_last (tg_log (dw_target x')) (rd_renderPass (pass_data (dw_target x') i)) (rd_area (pass_data (dw_target x') i)) /\
  (pp_prepared (dw_pass x) = false -> remade x u <> None) /\ (forall n, remade x u = Some n -> n <> 0) /\
  snd (pass_record i (remade x u) (dw_driver x) (dw_pass x)) = ho_pipeline (pp_holder (dw_pass x')) i.
Proof.
  intros [Li Ke Le Co Pa Ki Se Pr Po Kk Al Fi Rp St Sl Si] [Oi Oc] Sep x' i. fold i in Oc.
  destruct (record_parts u w ending x) as (E1 & E2 & E3 & E4 & E5 & body & E6 & _). fold x' in E1, E2, E3, E4, E5, E6. fold i in E1, E2, E5.
  assert (Hi : (i < length (tg_passes (dw_target x)))%nat) by (rewrite Le; exact Oc).
  pose proof (target_use (dw_target x) u body Li Hi) as TU. cbv zeta in TU. fold i in TU.
  destruct (lives_init (us_env u) (us_graph u) (us_pass u) i (dw_target x) (us_ctx u) Li Hi) as (_ & _ & NZ).
  assert (Rm : remade x u = let '(t1, _, m) := tg_initialise (us_env u) (us_graph u) (us_pass u) i (dw_target x) (us_ctx u) in if m then Some (rd_renderPass (pass_data t1 i)) else None) by reflexivity.
  assert (Fs : first_states x u = let '(t1, _, _) := tg_initialise (us_env u) (us_graph u) (us_pass u) i (dw_target x) (us_ctx u) in
     match remade x u with Some rp => if prepares (dw_pass x) rp then Model_Draw.prepare (dw_position x) (tg_size t1) (tg_blend t1) (dw_states x) else dw_states x | None => dw_states x end) by reflexivity.
  assert (Et : dw_target x' = fst (fst (tg_record (us_env u) (us_graph u) (us_pass u) i body (dw_target x) (us_ctx u)))) by (rewrite E6; reflexivity).
  rewrite <- Et in TU. destruct (tg_initialise (us_env u) (us_graph u) (us_pass u) i (dw_target x) (us_ctx u)) as [[t1 c1] m]. cbn [fst] in NZ.
  rewrite Oi in TU. destruct TU as [U1 U2 U3 U4 U5 U6 U7 U8 _].
  destruct (lives_use (dw_target x) (with_body u body) Li Hi) as [L1 L2]. rewrite <- E6 in L1, L2.
  pose proof (kept_use images size (dw_target x) (with_body u body) Ke Li Oi Hi) as K1. rewrite <- E6 in K1.
  assert (NZ' : rd_renderPass (pass_data (dw_target x') i) <> 0) by (rewrite U1; exact NZ).
  assert (Kc : pp_kind (dw_pass x) <> Compute) by (rewrite Ki; apply not_compute).
  assert (P0 : pp_prepared (dw_pass x) = false -> remade x u <> None).
  { intros P N. rewrite Rm in N. destruct m; [discriminate|]. rewrite (U5 eq_refl) in NZ'. apply (Sl i Oc) in NZ'. destruct NZ' as [A _]. congruence. }
  assert (P1 : forall n, remade x u = Some n -> n <> 0). { intros n N. rewrite Rm in N. destruct m; [injection N as <-; exact NZ|discriminate]. }
  assert (Hs : (i < length (ho_sets (pp_holder (dw_pass x))))%nat) by (rewrite Se; exact Oc).
  pose proof (record_good i (remade x u) (dw_driver x) (dw_pass x) Pa Hs (fun _ => P0) P1) as RG.
  destruct (record_ext i (remade x u) (dw_driver x) (dw_pass x)) as [es Ex].
  pose proof (fun j => quad_others i j (remade x u) (dw_driver x) (dw_pass x)) as QO.
  assert (RY : forall r, remade x u = Some r -> r = tg_nexth (dw_target x) /\ right k images size position cull (first_states x u) /\ fixed k cull (first_states x u) /\
     exists program l, made_as (dr_log (fst (fst (pass_record i (remade x u) (dw_driver x) (dw_pass x))))) (snd (pass_record i (remade x u) (dw_driver x) (dw_pass x))) = Some (program, r, l)).
  { intros r N. pose proof N as N0. rewrite Rm in N. destruct m; [|discriminate]. injection N as N. destruct (U4 eq_refl) as [A B]. rewrite U1, N in A.
    assert (Ne : pp_renderPass (dw_pass x) <> r) by lia.
    split; [exact A|]. rewrite Fs, N0.
    assert (PP : prepares (dw_pass x) r = true).
    { unfold prepares. apply N.eqb_neq in Ne. rewrite Ne. destruct (pp_kind (dw_pass x)); [contradiction| |]; apply orb_true_r. }
    rewrite PP. split.
    - unfold right. cbn. rewrite Po, U3, (ke_size _ _ _ Ke), B. auto.
    - split.
      + split; [apply (proj1 Fi)|apply (proj2 Fi)].
      + pose proof (record_young i r (dw_driver x) (dw_pass x) Pa Hs Kc (P1 r N0) (fun _ _ => Ne)) as Y. rewrite N0 in RG.
        destruct (pass_record i (Some r) (dw_driver x) (dw_pass x)) as [[d' p'] h]. cbn [fst snd]. destruct RG as (_ & _ & Hh & _). destruct Y as [Y|[_ Y]]; [contradiction|exact Y]. }
  assert (RN : remade x u = None -> first_states x u = dw_states x /\ pp_prepared (dw_pass x) = true /\
     (forall j, ho_pipeline (pp_holder (snd (fst (pass_record i (remade x u) (dw_driver x) (dw_pass x))))) j = ho_pipeline (pp_holder (dw_pass x)) j) /\ no_made es = true /\
     rd_renderPass (pass_data (dw_target x') i) = rd_renderPass (pass_data (dw_target x) i)).
  { intro N. split; [rewrite Fs, N; reflexivity|]. assert (M : m = false) by (rewrite Rm in N; destruct m; [discriminate|reflexivity]).
    pose proof (U5 M) as A. rewrite A in NZ'. destruct (Sl i Oc NZ') as (B1 & B2 & _). split; [exact B1|].
    destruct (kept_record i (dw_driver x) (dw_pass x) Kc B2) as (C1 & es' & C2 & C3). rewrite N in Ex |- *. split; [exact C1|]. rewrite Ex in C2. apply app_inv_head in C2. subst es'. auto. }
  rewrite Ex in RY.
  destruct (pass_record i (remade x u) (dw_driver x) (dw_pass x)) as [[d' p'] h]. cbn [fst snd] in *.
  destruct RG as (G1 & G2 & G3 & (G4 & G5 & G6 & G7 & G8) & G9 & G10 & G11). destruct (G11 Kc) as [G12 G13]. clear G11. unfold dims in G8. injection G8 as D1 D2 D3.
  split; [|split; [exact NZ'|split; [exact (U8 Co)|split; [exact U6|split; [exact P0|split; [exact P1|rewrite E2; exact G2]]]]]].
  constructor.
  - exact L1.
  - exact K1.
  - congruence.
  - exact (U8 Co).
  - rewrite E1, E2. exact G1.
  - rewrite E2. congruence.
  - rewrite E2. congruence.
  - rewrite E2. congruence.
  - congruence.
  - intros h' y. rewrite E1, E5, Ex, made_as_app, states_app, (described_ext (dw_driver x) d' es) by exact Ex. destruct (made_as (dr_log (dw_driver x)) h') as [z|] eqn:Ez.
    + intros _. destruct (Kk h' z Ez) as [s Hs']. rewrite Hs'. eauto.
    + intro Y. destruct (states_of (dw_made x) h') as [s|]; [eauto|]. rewrite (described_same es h' y _ Y). eauto.
  - intros h' s. rewrite E5, states_app, (described_ext (dw_driver x) d' es) by exact Ex. destruct (states_of (dw_made x) h') as [s0|] eqn:Es.
    + intros [= <-]. apply (Al h' s0 Es).
    + intro Y. destruct (remade x u) as [r|] eqn:N.
      * destruct (RY r eq_refl) as (_ & A & B & _). apply described_states in Y. subst s. auto.
      * destruct (RN eq_refl) as (_ & _ & _ & A & _). rewrite (no_made_pipelines es A) in Y. discriminate Y.
  - rewrite E4. destruct (remade x u) as [r|] eqn:N; [apply (RY r eq_refl)|]. destruct (RN eq_refl) as (-> & _). exact Fi.
  - rewrite E2, G13. destruct (remade x u) as [r|] eqn:N.
    + destruct (RY r eq_refl) as (-> & _). destruct U7 as [A|[A B]]; [exact A|]. rewrite A in Rm. discriminate Rm.
    + destruct U7 as [A|[_ A]]; lia.
  - intros _. rewrite E4. destruct (remade x u) as [r|] eqn:N; [apply (RY r eq_refl)|]. destruct (RN eq_refl) as (-> & A & _). exact (St A).
  - intros j Hj Nj. rewrite E1, E2. split; [exact G12|]. rewrite Ex. destruct (Nat.eq_dec j i) as [ -> |Ne].
    + rewrite <- G2. split; [exact G3|]. destruct (remade x u) as [r|] eqn:N.
      * destruct (RY r eq_refl) as (_ & _ & _ & A). rewrite U1. destruct m; [|discriminate Rm]. injection Rm as Rm. rewrite <- Rm. exact A.
      * destruct (RN eq_refl) as (_ & _ & A & _ & B). rewrite B in Nj |- *. destruct (Sl i Oc Nj) as (_ & _ & program & l & C). exists program, l. rewrite G2, A. apply more_made, C.
    + rewrite (U2 j Ne) in Nj |- *. destruct (Sl j Hj Nj) as (_ & B & program & l & C). destruct Sep as [Sep|[Sep1 Sep2]]; [lia|].
      assert (Q : ho_pipeline (pp_holder p') j = ho_pipeline (pp_holder (dw_pass x)) j).
      { apply QO; [congruence|]. unfold slot_of. rewrite Pr. destruct (Nat.eqb_spec programs 1) as [Y|Y]; [contradiction|exact Ne]. }
      rewrite Q. split; [exact B|]. exists program, l. apply more_made, C.
  - intros C1 _. rewrite E2, G13. assert (i = 0%nat) by lia. rewrite <- H. destruct (remade x u) as [r|] eqn:N.
    + rewrite U1. destruct m; [|discriminate Rm]. injection Rm as Rm. congruence.
    + destruct (RN eq_refl) as (_ & A & _ & _ & B). rewrite B, H. apply Si; assumption.
Qed.

Lemma reset_DI j c x : count = 1%nat -> DI' x -> (j < count)%nat -> DI' (draw_reset j c x).
Proof.
  intros C1 [Li Ke Le Co Pa Ki Se Pr Po Kk Al Fi Rp St Sl Si] Oc. assert (j = 0%nat) by lia. subst j.
  assert (Hs : (0 < length (ho_sets (pp_holder (dw_pass x))))%nat) by (rewrite Se; exact Oc).
  assert (Kc : pp_kind (dw_pass x) <> Compute) by (rewrite Ki; apply not_compute).
  pose proof (reset_good 0 c (dw_driver x) (dw_pass x) Pa Hs) as RG. pose proof (reset_young 0 c (dw_driver x) (dw_pass x) Pa Hs Kc) as RY.
  destruct (reset_ext 0 c (dw_driver x) (dw_pass x)) as [es Ex].
  assert (NP : pp_renderPass (dw_pass x) = 0 -> es = []).
  { intro Z. assert (E : dr_log (fst (pass_reset 0 c (dw_driver x) (dw_pass x))) = dr_log (dw_driver x)).
    { unfold pass_reset, on_holder, ho_reset. destruct (N.eqb _ 0); cbn [with_holder pp_kind pp_renderPass]; rewrite Z; destruct (pp_kind (dw_pass x)); try contradiction; reflexivity. }
    rewrite E in Ex. rewrite <- (app_nil_r (dr_log (dw_driver x))) in Ex at 1. apply app_inv_head in Ex. congruence. }
  destruct (proj1 (proj2 Pa) Kc) as [F1 F2].
  unfold draw_reset. destruct (pass_reset 0 c (dw_driver x) (dw_pass x)) as [d' p']. cbn [fst snd] in *.
  destruct RG as (G1 & (G4 & G5 & G6 & G7 & G8) & G9 & G10 & G11 & G12). unfold dims in G8. injection G8 as D1 D2 D3.
  constructor; cbn [dw_target dw_driver dw_pass dw_position dw_states dw_made]; try assumption; try congruence.
  - intros h' y. rewrite Ex, made_as_app, states_app, (described_ext (dw_driver x) d' es) by exact Ex. destruct (made_as (dr_log (dw_driver x)) h') as [z|] eqn:Ez.
    + intros _. destruct (Kk h' z Ez) as [s Hs']. rewrite Hs'. eauto.
    + intro Y. destruct (states_of (dw_made x) h') as [s|]; [eauto|]. rewrite (described_same es h' y _ Y). eauto.
  - intros h' s. rewrite states_app, (described_ext (dw_driver x) d' es) by exact Ex. destruct (states_of (dw_made x) h') as [s0|] eqn:Es.
    + intros [= <-]. apply (Al h' s0 Es).
    + intro Y. destruct (pp_prepared (dw_pass x)) eqn:P; [apply described_states in Y; subst s; split; [exact (St eq_refl)|exact Fi]|].
      rewrite (NP (proj1 (F1 eq_refl))) in Y. discriminate Y.
  - rewrite G10. exact St.
  - intros i Hi Ni. assert (i = 0%nat) by lia. subst i. destruct (Sl 0%nat Oc Ni) as (A1 & A2 & _). rewrite G10. split; [exact A1|]. destruct (F2 A1) as [B _]. destruct (RY B) as [Y1 Y2].
    rewrite Y1. split; [pose proof (proj1 (g_v _ (proj1 Pa))); cbn [fst] in *; lia|]. rewrite <- Y1. rewrite (Si C1 A1). exact Y2.
  - rewrite G10, G11. exact Si.
Qed.
End Hist.
