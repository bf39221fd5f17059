(* Quad and mesh passes with any number of indices and programs: the pipelines are made for render passes of the pass. *)
From Verif Require Import Proof_Device3 Proof_Pipe11 Proof_Target Proof_Target2 Proof_Target3 Spec_Draw Proof_Draw Proof_Draw2 Proof_Draw3.
From Coq Require Import Lia PeanoNat ZArith List.
Import ListNotations.
Local Open Scope N_scope.

(* the render passes the pipelines are created for *)
Definition all_for (P : N -> Prop) (d : driver) : Prop := forall h program rp l, In (PPipeline h program rp l) (dr_log d) -> P rp.
Definition for_P (P : N -> Prop) (x : driver * ppass) : Prop := all_for P (fst x) /\ pp_kind (snd x) <> Compute.
Lemma for_on P f x : for_P P x -> (forall d h, all_for P d -> all_for P (fst (f d h))) -> for_P P (on_holder f x) /\ pp_renderPass (snd (on_holder f x)) = pp_renderPass (snd x).
Proof. destruct x as [d p]. intros [A B] H. unfold on_holder. pose proof (H d (pp_holder p) A) as C. destruct (f d (pp_holder p)) as [d' h']. split; [split; assumption|reflexivity]. Qed.
Lemma all_ext P d l next : all_for P d -> (forall h program rp ly, In (PPipeline h program rp ly) l -> P rp) -> forall q, all_for P {| dr_next := next; dr_log := dr_log d ++ l; dr_queue := q |}.
Proof. intros A H q h program rp ly X. cbn [dr_log] in X. apply in_app_or in X. destruct X as [X|X]; [exact (A _ _ _ _ X)|exact (H _ _ _ _ X)]. Qed.
Lemma for_reset P i x : for_P P x -> for_P P (on_holder (ho_reset i) x) /\ pp_renderPass (snd (on_holder (ho_reset i) x)) = pp_renderPass (snd x).
Proof. intro H. apply for_on; [exact H|]. intros d h A. unfold ho_reset. destruct (N.eqb _ 0); exact A. Qed.
Lemma for_init P a b x : for_P P x -> for_P P (on_holder (ho_initialise a b) x) /\ pp_renderPass (snd (on_holder (ho_initialise a b) x)) = pp_renderPass (snd x).
Proof.
  intro H. apply for_on; [exact H|]. intros d h A. unfold ho_initialise. destruct (N.eqb _ 0); [|exact A]. cbn [fresh fst].
  intros h0 program rp ly X. cbn [dr_log] in X. repeat (apply in_app_or in X; destruct X as [X|X]); [exact (A _ _ _ _ X)| | |]; cbn in X; intuition discriminate.
Qed.
Lemma for_set P a b i x : for_P P x -> for_P P (on_holder (ho_set a b i) x) /\ pp_renderPass (snd (on_holder (ho_set a b i) x)) = pp_renderPass (snd x).
Proof.
  intro H. apply for_on; [exact H|]. intros d h A. unfold ho_set. destruct (N.eqb _ 0); [|exact A]. cbn [fresh fst].
  intros h0 program rp ly X. cbn [dr_log] in X. apply in_app_or in X. destruct X as [X|X]; [exact (A _ _ _ _ X)|]. cbn in X; intuition discriminate.
Qed.
Lemma for_cleanup P x : for_P P x -> for_P P (on_holder ho_cleanup x) /\ pp_renderPass (snd (on_holder ho_cleanup x)) = pp_renderPass (snd x).
Proof.
  intro H. apply for_on; [exact H|]. intros d h A. unfold ho_cleanup. cbn [fst].
  assert (D : forall k h' h0 program rp ly, ~ In (PPipeline h0 program rp ly) (destroy_event k h')) by (intros k h' h0 program rp ly; unfold destroy_event; destruct (N.eqb h' 0); cbn; intuition discriminate).
  intros h0 program rp ly X. unfold log in X. cbn [dr_log] in X. apply in_app_or in X. destruct X as [X|X]; [exact (A _ _ _ _ X)|]. exfalso.
  repeat (apply in_app_or in X; destruct X as [X|X]); try (exact (D _ _ _ _ _ _ X)). apply in_flat_map in X. destruct X as (z & _ & X). exact (D _ _ _ _ _ _ X).
Qed.
Lemma for_create P i x : for_P P x -> P (pp_renderPass (snd x)) -> for_P P (doCreatePipeline i x) /\ pp_renderPass (snd (doCreatePipeline i x)) = pp_renderPass (snd x).
Proof.
  intros H HP. apply for_on; [exact H|]. intros d h A. unfold guarded_create. destruct (N.eqb _ 0); [|exact A]. unfold ho_create, fresh. cbn [fst].
  apply all_ext; [exact A|]. intros h0 program rp ly X. destruct X as [X|[X|[]]]; [discriminate|]. injection X as _ _ X _. unfold pipeline_info in X. cbn [snd] in X.
  destruct H as [_ K]. destruct (pp_kind (snd x)); [contradiction| |]; subst rp; exact HP.
Qed.
Lemma for_rp P d p rp : for_P P (d, p) -> for_P P (d, with_renderPass p rp). Proof. intros [A B]. split; assumption. Qed.
Lemma for_resetRP P rp i x : for_P P x -> P rp -> for_P P (resetRenderPass rp i x) /\ pp_renderPass (snd (resetRenderPass rp i x)) = rp.
Proof.
  intros H HP. unfold resetRenderPass. destruct (for_reset P i x H) as [A _]. destruct (on_holder (ho_reset i) x) as [d p]. destruct (for_create P i (d, with_renderPass p rp) (for_rp P d p rp A) HP) as [B C]. split; [exact B|exact C].
Qed.
Lemma for_record P i rp d p : for_P P (d, p) -> (forall r, rp = Some r -> P r) -> (rp = None -> P (pp_renderPass p)) -> all_for P (fst (fst (pass_record i rp d p))).
Proof.
  intros H H1 H2. rewrite record_pre.
  assert (A : for_P P (pre_record i rp d p)).
  { unfold pre_record. pose proof (proj2 H) as K. cbn [snd] in K. destruct (pp_kind p) eqn:Ek; [contradiction| |].
    - destruct rp as [r|]; [|apply for_create; [exact H|apply H2; reflexivity]].
      assert (B : for_P P (quad_initialise r i (d, p)) /\ pp_renderPass (snd (quad_initialise r i (d, p))) = r).
      { unfold quad_initialise. assert (C : let y := (if negb (pp_prepared p) then let '(d, p) := on_holder (ho_initialise (pp_images p) (pp_buffers p)) (d, p) in (d, with_renderPass p r)
           else if negb (N.eqb (pp_renderPass p) r) then resetRenderPass r i (d, p) else (d, p)) in for_P P y /\ pp_renderPass (snd y) = r).
        { cbn zeta. destruct (negb (pp_prepared p)).
          - destruct (for_init P (pp_images p) (pp_buffers p) (d, p) H) as [C _]. destruct (on_holder _ (d, p)) as [d1 p1]. split; [apply for_rp, C|reflexivity].
          - destruct (N.eqb_spec (pp_renderPass p) r) as [E|E]; cbn [negb]; [split; assumption|]. apply for_resetRP; [exact H|]. apply H1. reflexivity. }
        cbn zeta in C. destruct C as [C D]. destruct (for_create P i _ C) as [F G]; [rewrite D; apply H1; reflexivity|]. split; [exact F|]. rewrite G. exact D. }
      destruct B as [B C]. apply for_create; [exact B|]. rewrite C. apply H1. reflexivity.
    - destruct rp as [r|]; [|apply for_create; [exact H|apply H2; reflexivity]].
      assert (B : for_P P (mesh_initialise r i (d, p)) /\ pp_renderPass (snd (mesh_initialise r i (d, p))) = r).
      { unfold mesh_initialise. destruct (for_cleanup P (d, p) H) as [A0 A1]. destruct (on_holder ho_cleanup (d, p)) as [d0 p0].
        destruct (for_init P (pp_images p0) (pp_buffers p0) (d0, p0) A0) as [A2 A3]. destruct (on_holder (ho_initialise _ _) (d0, p0)) as [d1 p1]. cbn [snd] in *.
        assert (C : let y := (if N.eqb (pp_renderPass p1) 0 then (d1, with_renderPass p1 r) else if negb (N.eqb (pp_renderPass p1) r) then resetRenderPass r i (d1, p1) else (d1, p1)) in for_P P y /\ pp_renderPass (snd y) = r).
        { cbn zeta. destruct (N.eqb (pp_renderPass p1) 0); [split; [apply for_rp, A2|reflexivity]|]. destruct (N.eqb_spec (pp_renderPass p1) r) as [E|E]; cbn [negb]; [split; assumption|]. apply for_resetRP; [exact A2|]. apply H1. reflexivity. }
        cbn zeta in C. destruct C as [C D]. destruct (for_create P i _ C) as [F G]; [rewrite D; apply H1; reflexivity|]. split; [exact F|]. rewrite G. exact D. }
      destruct B as [B C]. apply for_create; [exact B|]. rewrite C. apply H1. reflexivity. }
  destruct (for_set P (pp_images p) (pp_buffers p) i _ A) as [B _]. destruct (on_holder _ (pre_record i rp d p)) as [d' p']. apply B.
Qed.
Lemma for_passreset P i c d p : for_P P (d, p) -> (pp_renderPass p <> 0 -> P (pp_renderPass p)) -> all_for P (fst (pass_reset i c d p)).
Proof.
  intros H H1. unfold pass_reset. destruct (for_reset P i (d, p) H) as [A B]. destruct (on_holder (ho_reset i) (d, p)) as [d1 p1]. cbn [snd] in B.
  assert (A' : for_P P (d1, with_code p1 i c)) by (destruct c; exact A). pose proof (proj2 A) as K. cbn [snd] in K. destruct (pp_kind p1); [contradiction| |];
  (destruct (N.eqb_spec (pp_renderPass p1) 0) as [E|E]; [apply A'|]; apply for_create; [exact A'|]; destruct c; cbn [with_code snd pp_renderPass]; rewrite B in *; apply H1; exact E).
Qed.

Definition from_pass (t : target) (rp : N) : Prop := exists info, In (TRenderPass rp info) (tg_log t).
Record GI (k : pass_kind) (count : nat) (images : list attach) (size : N * N) (position : Z * Z) (cull : N) (x : drawer) : Prop := {
  gi_lives : lives (dw_target x);
  gi_kept : kept images size (dw_target x);
  gi_len : length (tg_passes (dw_target x)) = count;
  gi_shape : shaped count images (dw_target x);
  gi_pass : pass_good (dw_driver x) (dw_pass x);
  gi_kind : pp_kind (dw_pass x) = k;
  gi_sets : length (ho_sets (pp_holder (dw_pass x))) = count;
  gi_pos : dw_position x = position;
  gi_keys : forall h y, made_as (dr_log (dw_driver x)) h = Some y -> exists s, states_of (dw_made x) h = Some s;
  gi_all : forall h s, states_of (dw_made x) h = Some s -> right k images size position cull s /\ fixed k cull s;
  gi_fixed : fixed k cull (dw_states x);
  gi_rp : pp_renderPass (dw_pass x) < tg_nexth (dw_target x);
  gi_states : pp_prepared (dw_pass x) = true -> right k images size position cull (dw_states x) /\ from_pass (dw_target x) (pp_renderPass (dw_pass x));
  gi_prep : forall i, (i < count)%nat -> rd_renderPass (pass_data (dw_target x) i) <> 0 -> pp_prepared (dw_pass x) = true;
  gi_from : all_for (from_pass (dw_target x)) (dw_driver x) }.

Section Any.
Variables (k : pass_kind) (programs count : nat) (images buffers : list attach) (creator : option (nat -> N)) (size : N * N) (position : Z * Z) (cull : N).
Hypothesis kd : k = Quad \/ k = Mesh.
Notation GI' := (GI k count images size position cull).

Lemma new_GI : (programs = 1%nat \/ (count <= programs)%nat) -> (1 <= programs)%nat -> creator_ok programs count creator ->
  GI' (new_drawer k programs count images buffers creator size position cull).
Proof.
  intros H1 H2 Hc. destruct (new_DI k programs count images buffers creator size position cull H1 H2 Hc). constructor; try assumption.
  - intros r info [].
  - discriminate.
  - intros i Hi X. destruct (di_slots i Hi X) as [Y _]. exact Y.
  - intros h program rp l [].
Qed.

Lemma log_grows t u : lives t -> (rp_index (us_pass u) < length (tg_passes t))%nat -> exists es, tg_log (use_target t u) = tg_log t ++ es.
Proof.
  intros L Hi. unfold use_target, tg_record. set (i := rp_index (us_pass u)).
  assert (A : let '(t1, _, _) := tg_initialise (us_env u) (us_graph u) (us_pass u) i t (us_ctx u) in exists es, tg_log t1 = tg_log t ++ es).
  { unfold tg_initialise. destruct (andb _ _); [exists []; rewrite app_nil_r; reflexivity|]. eexists. reflexivity. }
  destruct (tg_initialise (us_env u) (us_graph u) (us_pass u) i t (us_ctx u)) as [[t1 c1] m]. destruct A as [es1 A].
  assert (B : exists es, tg_log (fst (tg_framebuffer i t1)) = tg_log t1 ++ es).
  { unfold tg_framebuffer. destruct (N.eqb _ 0); [eexists; reflexivity|exists []; rewrite app_nil_r; reflexivity]. }
  unfold tg_begin. destruct (tg_framebuffer i t1) as [t2 fb]. destruct B as [es2 B]. cbn [fst] in B. destruct (us_body u _ i) as [c3 l3]. unfold tg_end. cbn [fst tg_emit tg_log].
  rewrite B, A. eexists. rewrite <- !app_assoc. reflexivity.
Qed.
Lemma from_more t t' es rp : tg_log t' = tg_log t ++ es -> from_pass t rp -> from_pass t' rp.
Proof. intros E [info H]. exists info. rewrite E. apply in_or_app. left. exact H. Qed.

Lemma record_GI u w ending x : GI' x -> op_of_pass images count (DwRecord u w ending) ->
  let x' := fst (draw_record u w ending x) in let i := rp_index (us_pass u) in
  GI' x' /\ rd_renderPass (pass_data (dw_target x') i) <> 0 /\
  begun_last (tg_log (dw_target x')) (rd_renderPass (pass_data (dw_target x') i)) (rd_area (pass_data (dw_target x') i)) /\
  (pp_prepared (dw_pass x) = false -> remade x u <> None) /\ (forall n, remade x u = Some n -> n <> 0) /\
  snd (pass_record i (remade x u) (dw_driver x) (dw_pass x)) = ho_pipeline (pp_holder (dw_pass x')) i /\ ho_pipeline (pp_holder (dw_pass x')) i <> 0.
Proof.
  intros [Li Ke Le Sh Pa Ki Se Po Kk Al Fi Rp St Sl Fr] [Oi Oc] x' i. fold i in Oc.
  destruct (record_parts u w ending x) as (E1 & E2 & E3 & E4 & E5 & body & E6 & _). fold x' in E1, E2, E3, E4, E5, E6. fold i in E1, E2, E5.
  assert (Hi : (i < length (tg_passes (dw_target x)))%nat) by (rewrite Le; exact Oc).
  pose proof (target_use (dw_target x) u body Li Hi) as TU. cbv zeta in TU. fold i in TU.
  destruct (lives_init (us_env u) (us_graph u) (us_pass u) i (dw_target x) (us_ctx u) Li Hi) as (_ & _ & NZ).
  assert (Rm : remade x u = let '(t1, _, m) := tg_initialise (us_env u) (us_graph u) (us_pass u) i (dw_target x) (us_ctx u) in if m then Some (rd_renderPass (pass_data t1 i)) else None) by reflexivity.
  assert (Fs : first_states x u = let '(t1, _, _) := tg_initialise (us_env u) (us_graph u) (us_pass u) i (dw_target x) (us_ctx u) in
     match remade x u with Some rp => if prepares (dw_pass x) rp then Model_Draw.prepare (dw_position x) (tg_size t1) (tg_blend t1) (dw_states x) else dw_states x | None => dw_states x end) by reflexivity.
  assert (Et : dw_target x' = fst (fst (tg_record (us_env u) (us_graph u) (us_pass u) i body (dw_target x) (us_ctx u)))) by (rewrite E6; reflexivity).
  rewrite <- Et in TU. destruct (tg_initialise (us_env u) (us_graph u) (us_pass u) i (dw_target x) (us_ctx u)) as [[t1 c1] m]. cbn [fst] in NZ.
  rewrite Oi in TU. destruct TU as [U1 U2 U3 U4 U5 U6 U7 _ U8].
  destruct (lives_use (dw_target x) (with_body u body) Li Hi) as [L1 L2]. rewrite <- E6 in L1, L2.
  pose proof (kept_use images size (dw_target x) (with_body u body) Ke Li Oi Hi) as K1. rewrite <- E6 in K1.
  destruct (log_grows (dw_target x) (with_body u body) Li Hi) as [tes Te]. rewrite <- E6 in Te.
  assert (NZ' : rd_renderPass (pass_data (dw_target x') i) <> 0) by (rewrite U1; exact NZ).
  assert (Kc : pp_kind (dw_pass x) <> Compute) by (rewrite Ki; apply not_compute; exact kd).
  assert (P0 : pp_prepared (dw_pass x) = false -> remade x u <> None).
  { intros P N. rewrite Rm in N. destruct m; [discriminate|]. rewrite (U5 eq_refl) in NZ'. apply (Sl i Oc) in NZ'. congruence. }
  assert (P1 : forall n, remade x u = Some n -> n <> 0). { intros n N. rewrite Rm in N. destruct m; [injection N as <-; exact NZ|discriminate]. }
  assert (Hs : (i < length (ho_sets (pp_holder (dw_pass x))))%nat) by (rewrite Se; exact Oc).
  pose proof (record_good i (remade x u) (dw_driver x) (dw_pass x) Pa Hs (fun _ => P0) P1) as RG.
  destruct (record_ext i (remade x u) (dw_driver x) (dw_pass x)) as [es Ex].
  assert (Hi' : (i < length (tg_passes (dw_target x')))%nat) by (rewrite L2; exact Hi).
  assert (Fp : forall r, remade x u = Some r -> from_pass (dw_target x') r).
  { intros r N. rewrite Rm in N. destruct m; [|discriminate]. injection N as <-. rewrite <- U1. destruct (ke_data _ _ _ K1 i Hi') as [Z|(info & Q & _)]; [contradiction|exists info; exact Q]. }
  assert (RN : remade x u = None -> first_states x u = dw_states x /\ pp_prepared (dw_pass x) = true).
  { intro N. split; [rewrite Fs, N; reflexivity|]. destruct (pp_prepared (dw_pass x)) eqn:P; [reflexivity|]. exfalso. exact (P0 eq_refl N). }
  pose proof (for_record (from_pass (dw_target x')) i (remade x u) (dw_driver x) (dw_pass x)) as FR.
  assert (FA : all_for (from_pass (dw_target x')) (fst (fst (pass_record i (remade x u) (dw_driver x) (dw_pass x))))).
  { apply FR.
    - split; [intros h program rp l X; apply (from_more _ _ _ _ Te), (Fr h program rp l X)|exact Kc].
    - exact Fp.
    - intro N. apply (from_more _ _ _ _ Te). apply St, RN, N. }
  assert (RY : forall r, remade x u = Some r -> r = tg_nexth (dw_target x) /\ right k images size position cull (first_states x u) /\ fixed k cull (first_states x u)).
  { intros r N. pose proof N as N0. rewrite Rm in N. destruct m; [|discriminate]. injection N as N. destruct (U4 eq_refl) as [A B]. rewrite U1, N in A.
    assert (Ne : pp_renderPass (dw_pass x) <> r) by lia.
    split; [exact A|]. rewrite Fs, N0.
    assert (PP : prepares (dw_pass x) r = true).
    { unfold prepares. apply N.eqb_neq in Ne. rewrite Ne. destruct (pp_kind (dw_pass x)); [contradiction| |]; apply orb_true_r. }
    rewrite PP. split.
    - unfold right. cbn. rewrite Po, U3, (ke_size _ _ _ Ke), B. auto.
    - split; [apply (proj1 Fi)|apply (proj2 Fi)]. }
  destruct (pass_record i (remade x u) (dw_driver x) (dw_pass x)) as [[d' p'] h]. cbn [fst snd] in *.
  destruct RG as (G1 & G2 & G3 & (G4 & G5 & G6 & G7 & G8) & G9 & G10 & G11). destruct (G11 Kc) as [G12 G13]. clear G11. unfold dims in G8. injection G8 as D1 D2 D3.
  assert (Rs : right k images size position cull (first_states x u) /\ fixed k cull (first_states x u)).
  { destruct (remade x u) as [r|] eqn:N; [apply (RY r eq_refl)|]. destruct (RN eq_refl) as [-> A]. split; [apply (St A)|exact Fi]. }
  split; [|split; [exact NZ'|split; [exact U6|split; [exact P0|split; [exact P1|split; [rewrite E2; exact G2|rewrite E2, <- G2; exact G3]]]]]].
  constructor.
  - exact L1.
  - exact K1.
  - congruence.
  - apply U8; assumption.
  - rewrite E1, E2. exact G1.
  - rewrite E2. congruence.
  - rewrite E2. congruence.
  - congruence.
  - intros h' y. rewrite E1, E5, Ex, made_as_app, states_app, (described_ext (dw_driver x) d' es) by exact Ex. destruct (made_as (dr_log (dw_driver x)) h') as [z|] eqn:Ez.
    + intros _. destruct (Kk h' z Ez) as [s Hs']. rewrite Hs'. eauto.
    + intro Y. destruct (states_of (dw_made x) h') as [s|]; [eauto|]. rewrite (described_same es h' y _ Y). eauto.
  - intros h' s. rewrite E5, states_app, (described_ext (dw_driver x) d' es) by exact Ex. destruct (states_of (dw_made x) h') as [s0|] eqn:Es.
    + intros [= <-]. apply (Al h' s0 Es).
    + intro Y. apply described_states in Y. subst s. exact Rs.
  - rewrite E4. apply Rs.
  - rewrite E2, G13. destruct (remade x u) as [r|] eqn:N.
    + destruct (RY r eq_refl) as (-> & _). destruct U7 as [A|[A B]]; [exact A|]. rewrite A in Rm. discriminate Rm.
    + destruct U7 as [A|[_ A]]; lia.
  - intros _. rewrite E4, E2, G13. split; [apply Rs|]. destruct (remade x u) as [r|] eqn:N; [apply Fp; reflexivity|]. apply (from_more _ _ _ _ Te). apply St, RN. reflexivity.
  - intros _ _ _. rewrite E2. exact G12.
  - rewrite E1. exact FA.
Qed.

Lemma reset_GI j c x : GI' x -> (j < count)%nat -> GI' (draw_reset j c x).
Proof.
  intros [Li Ke Le Sh Pa Ki Se Po Kk Al Fi Rp St Sl Fr] Oc.
  assert (Hs : (j < length (ho_sets (pp_holder (dw_pass x))))%nat) by (rewrite Se; exact Oc).
  assert (Kc : pp_kind (dw_pass x) <> Compute) by (rewrite Ki; apply not_compute; exact kd).
  pose proof (reset_good j c (dw_driver x) (dw_pass x) Pa Hs) as RG.
  destruct (reset_ext j c (dw_driver x) (dw_pass x)) as [es Ex].
  destruct (proj1 (proj2 Pa) Kc) as [F1 F2].
  assert (FA : all_for (from_pass (dw_target x)) (fst (pass_reset j c (dw_driver x) (dw_pass x)))).
  { apply for_passreset; [split; assumption|]. intro Z. destruct (pp_prepared (dw_pass x)) eqn:P; [apply (St eq_refl)|]. destruct (F1 eq_refl) as [Z' _]. contradiction. }
  assert (NP : pp_renderPass (dw_pass x) = 0 -> es = []).
  { intro Z. assert (E : dr_log (fst (pass_reset j c (dw_driver x) (dw_pass x))) = dr_log (dw_driver x)).
    { unfold pass_reset, on_holder, ho_reset. destruct (N.eqb _ 0); cbn [with_holder pp_kind pp_renderPass]; rewrite Z; destruct (pp_kind (dw_pass x)); try contradiction; reflexivity. }
    rewrite E in Ex. rewrite <- (app_nil_r (dr_log (dw_driver x))) in Ex at 1. apply app_inv_head in Ex. congruence. }
  unfold draw_reset. destruct (pass_reset j c (dw_driver x) (dw_pass x)) as [d' p']. cbn [fst snd] in *.
  destruct RG as (G1 & (G4 & G5 & G6 & G7 & G8) & G9 & G10 & G11 & G12). unfold dims in G8. injection G8 as D1 D2 D3.
  constructor; cbn [dw_target dw_driver dw_pass dw_position dw_states dw_made]; try assumption; try congruence.
  - intros h' y. rewrite Ex, made_as_app, states_app, (described_ext (dw_driver x) d' es) by exact Ex. destruct (made_as (dr_log (dw_driver x)) h') as [z|] eqn:Ez.
    + intros _. destruct (Kk h' z Ez) as [s Hs']. rewrite Hs'. eauto.
    + intro Y. destruct (states_of (dw_made x) h') as [s|]; [eauto|]. rewrite (described_same es h' y _ Y). eauto.
  - intros h' s. rewrite states_app, (described_ext (dw_driver x) d' es) by exact Ex. destruct (states_of (dw_made x) h') as [s0|] eqn:Es.
    + intros [= <-]. apply (Al h' s0 Es).
    + intro Y. destruct (pp_prepared (dw_pass x)) eqn:P; [apply described_states in Y; subst s; split; [apply (St eq_refl)|exact Fi]|].
      rewrite (NP (proj1 (F1 eq_refl))) in Y. discriminate Y.
  - rewrite G10, G11. exact St.
  - rewrite G10. exact Sl.
Qed.

Lemma step_GI o x : GI' x -> op_of_pass images count o -> GI' (dw_step x o) /\ op_sane (world_of x) (pipe_op x o).
Proof.
  intros D Ho. destruct o as [u w ending|i c].
  - destruct (record_GI u w ending x D Ho) as (A & _ & _ & B & C & _). split; [exact A|].
    cbn [pipe_op op_sane]. unfold record_sane, pass_index_ok. cbn [world_of pw_passes mfind N.eqb].
    split; [|split].
    + intros p [= <-]. rewrite (gi_sets _ _ _ _ _ _ _ D). apply Ho.
    + intros p [= <-] _. exact B.
    + exact C.
  - split; [apply reset_GI; assumption|].
    cbn [pipe_op op_sane]. unfold pass_index_ok. cbn [world_of pw_passes mfind N.eqb]. intros p [= <-]. rewrite (gi_sets _ _ _ _ _ _ _ D). exact Ho.
Qed.
Lemma run_GI ops : forall x, GI' x -> Forall (op_of_pass images count) ops -> GI' (draws_all x ops) /\ sane (world_of x) (pipe_ops x ops).
Proof.
  induction ops as [|o ops IH]; intros x D F; [split; [exact D|exact I]|]. inversion F; subst.
  destruct (step_GI o x D H1) as [D1 O1]. destruct (IH (dw_step x o) D1 H2) as [D2 O2]. split; [exact D2|]. cbn [pipe_ops sane]. split; [exact O1|]. rewrite world_step. exact O2.
Qed.
End Any.

Lemma compatible_shapes n images t r1 i1 r2 i2 : shaped n images t -> one_format images n -> In (TRenderPass r1 i1) (tg_log t) -> In (TRenderPass r2 i2) (tg_log t) -> compatible i1 i2.
Proof.
  intros S O H1 H2. destruct (S _ _ H1) as (a & A1 & A2 & A3 & A4). destruct (S _ _ H2) as (b & B1 & B2 & B3 & B4). split; [|split; congruence].
  clear - O A1 A2 B1 B2. unfold one_format in O. revert A2 B2 O. generalize (ri_descs i1), (ri_descs i2). generalize (filter isTarget images). intros l l1 l2 A. revert l2.
  induction A as [|x d l l1 D A IH]; intros l2 B O; inversion B as [|? d' ? l2' D' B']; subst; [reflexivity|]. cbn [map]. f_equal.
  - destruct D as [D _]. destruct D' as [D' _]. rewrite D, D'. apply O; [left; reflexivity|exact A1|exact B1].
  - apply IH; [exact B'|]. intros y i j Hy. apply O. right. exact Hy.
Qed.
Lemma made_in_log l h y : made_as l h = Some y -> In (PPipeline h (fst (fst y)) (snd (fst y)) (snd y)) l.
Proof.
  induction l as [|e l IH]; [discriminate|]. destruct e; cbn [made_as]; try (intro E; right; apply IH; exact E).
  destruct (N.eqb_spec h h0) as [->|Ne]; intro E; [injection E as <-; left; reflexivity|right; apply IH; exact E].
Qed.

Section Last.
Variables (k : pass_kind) (programs count : nat) (images buffers : list attach) (creator : option (nat -> N)) (size : N * N) (position : Z * Z) (cull : N).
Variables (ops : list dop) (u : use) (w : drawing) (ending : rctx -> nat -> rctx * list cmd).
Hypothesis kd : k = Quad \/ k = Mesh.
Hypothesis pc : (programs = 1 \/ count <= programs)%nat.
Hypothesis p1 : (1 <= programs)%nat.
Hypothesis cr : creator_ok programs count creator.
Hypothesis op : Forall (op_of_pass images count) (ops ++ [DwRecord u w ending]).
Let x0 := start k programs count images buffers creator size position cull.
Let x := draws_all x0 ops.
Let x' := dw_step x (DwRecord u w ending).
Let i := rp_index (us_pass u).
Let hist := born k programs count images buffers creator :: pipe_ops x0 ops.
Lemma any_draw : exists r info,
  begun_last (tg_log (dw_target x')) r (render_area size images) /\ handles_alive (tg_log (dw_target x')) /\
  made_with (tg_log (dw_target x')) r = Some info /\ length (ri_colours info) = length (colours images) /\
  exists h program r' info' layout s, 
     sane new_pworld (hist ++ [ORecord 0 i (remade x u)]) /\ calls (hist ++ [ORecord 0 i (remade x u)]) = dr_log (dw_driver x') /\
     (exists set, binds hist 0 i (remade x u) = Some (h, layout, set)) /\
     (draws_nothing (us_body u) -> draws_nothing ending -> drawn_with 0 false (snd (snd (draw_record u w ending x))) = [(h, true)]) /\
     made_as (dr_log (dw_driver x')) h = Some (program, r', layout) /\ made_with (tg_log (dw_target x')) r' = Some info' /\
     (one_format images count -> compatible info info') /\ (separate_pipelines k programs count ops -> r' = r) /\
     states_of (dw_made x') h = Some s /\ right k images size position cull s /\ fixed k cull s.
Proof.
  pose proof op as op'. apply Forall_app in op'. destruct op' as [F1 F2]. apply Forall_inv in F2.
  assert (D0 : GI k count images size position cull x0) by (apply new_GI; assumption).
  destruct (run_GI k count images size position cull kd ops _ D0 F1) as [D1 S1]. fold x in D1.
  destruct (record_GI k count images size position cull kd u w ending x D1 F2) as (D2 & NZ & Be & P0 & P1 & Hp & Hz).
  change (fst (draw_record u w ending x)) with x' in *. fold i in NZ, Be, Hp, Hz.
  destruct D2 as [Li Ke Le Sh Pa Ki Se Po Kk Al Fi Rp St Sl Fr]. cbn [op_of_pass] in F2. destruct F2 as [F2 F3]. fold i in F3.
  assert (F3' : (i < length (tg_passes (dw_target x')))%nat) by (rewrite Le; exact F3).
  destruct (ke_data _ _ _ Ke i F3') as [Z|(info & K1 & _ & _ & _ & _ & _ & _ & K2)]; [contradiction|].
  destruct (made_with_in _ _ _ K1) as (info1 & M1 & M2). rewrite K2 in Be.
  exists (rd_renderPass (pass_data (dw_target x') i)), info1. split; [exact Be|]. split; [apply Li|]. split; [exact M1|].
  split. { destruct (Sh _ _ M2) as (j & _ & _ & Q & _). rewrite <- (map_length fst), Q, map_length, (positions_filter (fun a => negb (depth_target a))). reflexivity. }
  assert (W : prun new_pworld hist = world_of x). { unfold hist. change (prun new_pworld (?a :: ?b)) with (prun (prun new_pworld [a]) b). rewrite world_born with (size := size) (position := position) (cull := cull). apply world_run. }
  assert (W' : prun new_pworld (hist ++ [ORecord 0 i (remade x u)]) = world_of x'). { rewrite prun_app, W. apply (world_step x (DwRecord u w ending)). }
  assert (S : sane new_pworld (hist ++ [ORecord 0 i (remade x u)])).
  { apply sane_app. rewrite W. split.
    - split; [split; [exact pc|lia]|exact S1].
    - split; [|exact I]. apply (step_GI k count images size position cull kd (DwRecord u w ending) x D1). split; assumption. }
  assert (Bi : binds hist 0 i (remade x u) = Some (ho_recordInto i (pp_holder (dw_pass x')))) by (unfold binds; rewrite W'; reflexivity).
  assert (Cr : Forall op_creator_ok hist).
  { constructor; [exact cr|]. clear. generalize x0. induction ops as [|o l IH]; intro y; cbn [pipe_ops]; constructor; [destruct o; exact I|apply IH]. }
  destruct (last_record hist 0 i (remade x u) _ _ _ S Cr Bi) as (p & r & X1 & _ & _ & _ & _ & X6 & _). unfold calls in X6. rewrite W' in X1, X6. cbn [world_of pw_driver] in X6.
  destruct (Fr _ _ _ _ (made_in_log _ _ _ X6)) as [info' Fi']. cbn [fst snd] in Fi'. destruct (made_with_in _ _ _ Fi') as (info2 & M3 & M4).
  destruct (Kk _ _ X6) as [s Es].
  exists (ho_pipeline (pp_holder (dw_pass x')) i), (getProgram p i), r, info2, (ho_layout (pp_holder (dw_pass x'))), s.
  split; [exact S|]. split; [unfold calls; rewrite W'; reflexivity|]. split; [eexists; exact Bi|]. split.
  - intros N1 N2. destruct (record_parts u w ending x) as (_ & _ & _ & _ & _ & body & _ & c0 & c & E). fold i in E. rewrite Hp in E. rewrite E. unfold ">>>".
    destruct (ending c i) as [c2 l2] eqn:E2. cbn [snd]. cbn [app drawn_with]. unfold bind_cmds. cbn [app drawn_with]. rewrite <- !app_assoc. rewrite N1, draw_one. cbn [app drawn_with].
    pose proof (N2 c i (ho_pipeline (pp_holder (dw_pass x')) i) false []) as N4. rewrite E2 in N4. cbn [snd] in N4. rewrite app_nil_r in N4. rewrite N4. reflexivity.
  - split; [exact X6|]. split; [exact M3|]. split; [intro O; exact (compatible_shapes count images _ _ _ _ _ Sh O M2 M4)|]. split; [|split; [exact Es|exact (Al _ _ Es)]].
    intro sp. destruct (last_draw k programs count images buffers creator size position cull ops u w ending kd pc p1 cr sp op) as (r1 & area1 & (b1 & f1 & cl1 & A1) & _ & _ & _ & [[h ly] st] & A3 & _ & _ & _ & program1 & A7 & _).
    change (draws_all (start k programs count images buffers creator size position cull) ops) with x in A1, A3, A7. change (dw_step x (DwRecord u w ending)) with x' in A1, A7. cbn [fst snd] in A7.
    fold i in A3. change (born k programs count images buffers creator :: pipe_ops (start k programs count images buffers creator size position cull) ops) with hist in A3.
    rewrite Bi in A3. unfold ho_recordInto in A3. injection A3 as A3 _ _. rewrite <- A3, X6 in A7. injection A7 as _ A7 _.
    destruct Be as (b2 & f2 & cl2 & B). rewrite B in A1. 
    change ([TBegin ?a ?b ?c ?d; TEnd]) with ([TBegin a b c d] ++ [TEnd]) in A1. rewrite !app_assoc in A1. apply app_inj_tail in A1. destruct A1 as [A1 _]. apply app_inj_tail in A1. destruct A1 as [_ A1]. congruence.
Qed.
End Last.
