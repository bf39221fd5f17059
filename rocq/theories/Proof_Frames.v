(* Known layouts are not forgotten by the recording of a pass. *)
From Verif Require Import Spec_Frames Proof_Layout Proof_Record Proof_Run2 Proof_Run3 Proof_Device Proof_Device2 Proof_Device3 Proof_Device4 Proof_Device6.
From Coq Require Import PeanoNat.
Local Open Scope N_scope.

Section Known.
Context (g : rgraph) (F : view -> Prop) (HF : regions F).
Definition grows (c : rctx) (x : rctx * list cmd) : Prop := forall v, F v -> known_layout c v <> L_UNDEFINED -> known_layout (fst x) v <> L_UNDEFINED.
Lemma grows_refl c l : grows c (c, l). Proof. intros v _ H. exact H. Qed.
Lemma grows_seq c x f : grows c x -> grows (fst x) (f (fst x)) -> grows c (x >>> f).
Proof. intros A B v Fv K. specialize (B v Fv (A v Fv K)). destruct x as [c1 l1]. cbn [seq2 fst] in *. destruct (f c1). exact B. Qed.
Lemma grows_same c c' l : (forall v, known_layout c' v = known_layout c v) -> grows c (c', l).
Proof. intros E v _ H. cbn [fst]. rewrite E. exact H. Qed.
(* Setting the state of a view of the regions. *)
Lemma grows_set c v s l : F v -> ls_layout s <> L_UNDEFINED -> grows c (rc_setLayoutState c (v_image v) (v_type v) (v_range v) s, l).
Proof.
  intros Fv Hs w Fw K. cbn [fst]. destruct (set_known c v w s (F_ok F HF v Fv) (F_ok F HF w Fw)) as [A B]. destruct (proj2 HF v w Fv Fw) as [S|S]; [rewrite A by exact S; exact Hs|rewrite B by exact S; exact K].
Qed.
Lemma grows_barrier sep c v initial wanted force : F v -> (force = true -> ls_layout wanted <> L_UNDEFINED) -> grows c (memoryBarrier sep c (v_image v) (v_type v) (v_range v) initial wanted force).
Proof.
  intros Fv Hf. destruct (barrier_cases sep c (v_image v) (v_type v) (v_range v) initial wanted force) as [[Hn ->]|[_ ->]]; [|apply grows_refl].
  apply grows_set; [exact Fv|]. destruct Hn as [Hn|[_ Hn]]; [apply Hf, Hn|exact Hn].
Qed.
Lemma grows_to e c v l : F v -> grows c (barrier_to e c v l).
Proof. intro Fv. unfold barrier_to. apply grows_barrier; [exact Fv|discriminate]. Qed.
Lemma grows_final e c v l : F v -> grows c (final_barrier e c v l).
Proof. intro Fv. unfold final_barrier. destruct (N.eqb l L_UNDEFINED); [apply grows_refl|apply grows_to, Fv]. Qed.
Lemma grows_neutral f i c : neutral_fun f -> grows c (f c i).
Proof. intro H. destruct (H c i) as [A _]. destruct (f c i) as [c' l]. cbn [fst] in A. subst c'. apply grows_refl. Qed.
Lemma grows_implicit e acts i : (forall x, In x acts -> sound_action e F i (snd x)) -> forall fuel c v, pend acts c -> grows c (runImplicit_fuel fuel e c i v).
Proof.
  intro Ha. induction fuel as [|fuel IH]; intros c v P.
  all: cbn [runImplicit_fuel]; destruct (take_first (v_id v) (rc_implicit c)) as [[[p a] rest]|] eqn:E; [|apply grows_refl].
  all: destruct (take_first_in _ _ _ _ _ E) as [(u & Hu & Eu) Hr].
  all: assert (Z : forall x, grows (set_implicit c rest) x -> grows c x) by (intros x H; exact H).
  all: destruct (e_enabled e p); [apply grows_same; reflexivity|]. 1: apply grows_same; reflexivity.
  pose proof (P p u a Hu) as Hin. destruct (Ha _ Hin) as [HF1 HS]. cbn [snd] in HF1, HS. apply Z.
  assert (P1 : pend acts (set_implicit c rest)) by (apply (pend_incl acts c); [exact Hr|exact P]).
  destruct a as [src dst w h final|src dst [sx sy] [sw sh] [dx dy] [dw dh] filter final|views final|tag].
  - assert (Fs : F src) by (apply HF1; left; reflexivity). assert (Fd : F dst) by (apply HF1; right; left; reflexivity).
    apply grows_seq; [apply grows_seq; [apply grows_seq; [apply grows_seq; [apply IH, P1|]|]|]|]; first [apply grows_to; assumption|apply grows_final; assumption|apply grows_refl].
  - assert (Fs : F src) by (apply HF1; left; reflexivity). assert (Fd : F dst) by (apply HF1; right; left; reflexivity).
    apply grows_seq; [apply grows_seq; [apply grows_seq; [apply grows_seq; [apply IH, P1|]|]|]|]; first [apply grows_to; assumption|apply grows_final; assumption|apply grows_refl].
  - cbn [action_views] in HF1. assert (Fd : F (match views with [x] => x | l => nth i l dummy_view end)) by (apply HF1; left; reflexivity).
    cbv zeta. apply grows_seq; [apply grows_seq|]; first [apply grows_to; assumption|apply grows_final; assumption|apply grows_refl].
  - apply grows_neutral. exact HS.
Qed.
Lemma current_grows c v c' s : F v -> getCurrentLayoutState g c (v_image v) (v_type v) (v_range v) = (c', s) -> forall l, grows c (c', l).
Proof.
  intros Fv E l. unfold getCurrentLayoutState in E.
  destruct (N.eqb_spec (ls_layout (rc_getLayoutState c (v_image v) (v_type v) (v_range v))) L_UNDEFINED) as [A|A]; cbn [negb] in E; [|injection E as <- <-; apply grows_refl].
  destruct (N.eqb_spec (ls_layout (getLayoutState (g_inputs g) (v_image v) (v_type v) (v_range v))) L_UNDEFINED) as [B|B]; cbn [negb] in E.
  2:{ injection E as <- <-. apply grows_set; assumption. }
  destruct (N.eqb_spec (ls_layout (rc_getLayoutState (g_final g) (v_image v) (v_type v) (v_range v))) L_UNDEFINED) as [D|D]; cbn [negb] in E.
  2:{ injection E as <- <-. apply grows_set; assumption. }
  injection E as <- <-. apply grows_refl.
Qed.
Lemma grows_image e acts p a c : (forall x, In x acts -> sound_action e F (rp_index p) (snd x)) -> F (attach_view a (rp_index p)) -> pend acts c ->
  grows c (record_image e g p a c) /\
  (has_transition a = true -> a_getImageLayout a (e_separate e) <> L_UNDEFINED -> known_layout (fst (record_image e g p a c)) (attach_view a (rp_index p)) <> L_UNDEFINED).
Proof.
  intros Ha Fv P. set (v := attach_view a (rp_index p)) in *. unfold record_image. fold v.
  pose proof (grows_implicit e acts (rp_index p) Ha (length (rc_implicit c)) c v P) as G0. fold (runImplicit e c (rp_index p) v) in G0.
  destruct (runImplicit e c (rp_index p) v) as [c0 l0]. fold (has_transition a).
  set (X := fun c => if has_transition a then _ else _).
  enough (GX : grows c0 (X c0) /\ (has_transition a = true -> a_getImageLayout a (e_separate e) <> L_UNDEFINED -> known_layout (fst (X c0)) v <> L_UNDEFINED)).
  { split; [apply grows_seq; [exact G0|apply GX]|]. cbn [seq2]. destruct (X c0) as [cx lx]. apply GX. }
  unfold X. clear X G0. destruct (has_transition a); [|split; [apply grows_refl|discriminate]]. set (needed := makeLayoutState (a_getImageLayout a (e_separate e))).
  destruct (if isInput a then getCurrentLayoutState g c0 (v_image v) (v_type v) (v_range v) else (c0, makeLayoutState L_UNDEFINED)) as [c1 cur] eqn:E.
  assert (G1 : forall l, grows c0 (c1, l)).
  { intro l. destruct (isInput a); [apply (current_grows c0 v c1 cur Fv E)|]. injection E as <- _. apply grows_refl. }
  assert (K1 : known_layout c1 v <> L_UNDEFINED \/ ls_layout cur = L_UNDEFINED).
  { destruct (isInput a); [|injection E as _ <-; right; reflexivity]. destruct (current_known g c0 v (F_ok F HF v Fv) c1 cur E) as (_ & H2 & _).
    destruct (N.eq_dec (ls_layout cur) L_UNDEFINED) as [U|U]; [right; exact U|left]. unfold known_layout. rewrite (H2 U). exact U. }
  assert (Up : forall x, grows c1 x -> grows c0 x) by (intros x H w Fw K; apply H; [exact Fw|apply (G1 []); assumption]).
  destruct (barrier_view_effect (e_separate e) c1 v (ls_layout cur) needed (F_ok F HF v Fv)) as (_ & _ & A3).
  destruct (barrier_view_effect (e_separate e) c1 v (ls_layout cur) transfer_dst_state (F_ok F HF v Fv)) as (_ & _ & A4). unfold memoryBarrier_view in *.
  destruct (isClearableImage a).
  - split.
    + apply Up, grows_seq; [apply grows_seq; [apply grows_barrier; [exact Fv|discriminate]|apply grows_refl]|apply grows_barrier; [exact Fv|discriminate]].
    + intros _ Hu. destruct (memoryBarrier (e_separate e) c1 (v_image v) (v_type v) (v_range v) (ls_layout cur) transfer_dst_state false) as [c2 l2]. cbn [fst seq2 emit] in *.
      destruct (barrier_view_effect (e_separate e) c2 v L_TRANSFER_DST needed (F_ok F HF v Fv)) as (_ & _ & A5). unfold memoryBarrier_view in A5.
      destruct (memoryBarrier (e_separate e) c2 (v_image v) (v_type v) (v_range v) L_TRANSFER_DST needed false) as [c3 l3]. cbn [fst] in *. rewrite A5; [exact Hu|exact Hu|left].
      rewrite A4; [discriminate|discriminate|]. destruct K1 as [K|K]; [left; exact K|right; rewrite K; discriminate].
  - split; [apply Up, grows_barrier; [exact Fv|discriminate]|]. intros _ Hu. rewrite A3; [exact Hu|exact Hu|]. destruct K1 as [K|K]; [left; exact K|right; rewrite K]. intro X. apply Hu. symmetry. exact X.
Qed.
(* All the image attachments, all the buffers. *)
Lemma grows_images e acts p l : (forall x, In x acts -> sound_action e F (rp_index p) (snd x)) -> (forall a, In a l -> F (attach_view a (rp_index p))) -> forall c d, pend acts c -> right g F c d ->
  grows c (run_all (record_image e g p) l c) /\
  (forall a, In a l -> has_transition a = true -> a_getImageLayout a (e_separate e) <> L_UNDEFINED -> known_layout (fst (run_all (record_image e g p) l c)) (attach_view a (rp_index p)) <> L_UNDEFINED).
Proof.
  intros Ha. induction l as [|a l IH]; intros Hl c d P R; [split; [apply grows_refl|intros a []]|]. rewrite run_all_cons.
  destruct (grows_image e acts p a c Ha (Hl a (or_introl eq_refl)) P) as [G1 K1].
  destruct (good_record_image g F HF e acts p a c d Ha (Hl a (or_introl eq_refl)) P R) as ((_ & B1 & C1) & _).
  destruct (record_image e g p a c) as [c1 l1]. cbn [fst snd seq2] in *.
  destruct (IH (fun b Hb => Hl b (or_intror Hb)) c1 (after_all d l1) (pend_incl acts c c1 C1 P) B1) as [G2 K2].
  destruct (run_all (record_image e g p) l c1) as [c2 l2]. cbn [fst] in *. split; [intros v Fv K; apply G2; [exact Fv|apply G1; assumption]|].
  intros b [<-|Hb] Ht Hu; [|apply K2; assumption]. apply G2; [apply Hl; left; reflexivity|apply K1; assumption].
Qed.
Lemma buffer_known p a c v : known_layout (fst (record_buffer p a c)) v = known_layout c v.
Proof.
  unfold record_buffer. destruct (andb _ _); [|reflexivity]. unfold bufferBarrier. destruct (isClearableBuffer a).
  - cbn [seq2]. destruct (orb _ _); cbn [seq2 emit]; destruct (orb _ _); reflexivity.
  - destruct (orb _ _); reflexivity.
Qed.
Lemma buffers_known p l : forall c v, known_layout (fst (run_all (record_buffer p) l c)) v = known_layout c v.
Proof.
  induction l as [|a l IH]; intros c v; [reflexivity|]. rewrite run_all_cons. pose proof (buffer_known p a c v) as E. destruct (record_buffer p a c) as [c1 l1]. cbn [seq2 fst] in *.
  specialize (IH c1 v). destruct (run_all (record_buffer p) l c1) as [c2 l2]. cbn [fst] in *. congruence.
Qed.
Lemma funs_same i (l : list (rctx -> nat -> rctx * list cmd)) : (forall f, In f l -> neutral_fun f) -> forall c, fst (run_all (fun f c => f c i) l c) = c /\ Forall neutral (snd (run_all (fun f c => f c i) l c)).
Proof.
  induction l as [|f l IH]; intros H c; [split; [reflexivity|constructor]|]. rewrite run_all_cons. destruct (H f (or_introl eq_refl) c i) as [A B].
  destruct (f c i) as [c1 l1]. cbn [fst snd] in *. subst c1. cbn [seq2]. destruct (IH (fun f Hf => H f (or_intror Hf)) c) as [A2 B2].
  destruct (run_all _ l c) as [c2 l2]. cbn [fst snd] in *. split; [exact A2|apply Forall_app; auto].
Qed.
(* The copies of ImageCopy. *)
Lemma grows_copies e size final : forall views c, (forall v, In v views -> F v) -> grows c (image_copies e size final views c).
Proof.
  fix IH 1. intros [|s [|t rest]] c Hv; try (apply grows_refl). cbn [image_copies]. apply grows_seq; [apply grows_seq|].
  - apply grows_refl.
  - apply grows_final, Hv. right. left. reflexivity.
  - apply IH. intros v H. apply Hv. right. right. exact H.
Qed.
End Known.
