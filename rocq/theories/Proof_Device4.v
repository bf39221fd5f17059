(* Bodies of passes on the device, whole recordings and frames. *)
From Verif Require Import Spec_Device Proof_Layout Proof_Record Proof_Run2 Proof_Run3 Proof_Device Proof_Device2 Proof_Device3.
From Coq Require Import PeanoNat.
Local Open Scope N_scope.

Lemma sub_layers_in r layer mip : valid_range r -> in_range (sub_layers r) layer mip -> in_range r layer mip.
Proof. unfold valid_range, in_range, sub_layers. cbn. lia. Qed.
Lemma sub_in d v l : view_ok v -> view_in d v l -> in_layout d (i_id (v_image v)) (sub_layers (v_range v)) l.
Proof. intros [V _] H layer mip R. apply H, sub_layers_in; assumption. Qed.

Section Bodies.
Context (e : env) (g : rgraph) (F : view -> Prop) (HF : regions F).

Lemma sound_of_good p : (forall c d, right g F c d -> ready e p d -> good g F c d (rp_record p c (rp_index p))) -> sound_body e g F p.
Proof.
  intros H c d R Rd. specialize (H c d R Rd). destruct (rp_record p c (rp_index p)) as [c' l]. destruct H as (A & B & C). cbn [fst snd] in *.
  split; [exact A|]. split; [exact B|exact C].
Qed.
Lemma sound_neutral p : neutral_fun (rp_record p) -> sound_body e g F p.
Proof. intro H. apply sound_of_good. intros c d R _. apply good_neutral_fun; assumption. Qed.
(* Transfer attachments. *)
Lemma source_ready p d pass views b w fl misc : ready e p d -> In (declare_image addTransferInputView pass views b w fl misc) (rp_images p) ->
  view_in d (attach_view (declare_image addTransferInputView pass views b w fl misc) (rp_index p)) L_TRANSFER_SRC.
Proof. intros R H. apply (R _ H); [reflexivity|]. vm_compute. discriminate. Qed.
Lemma target_ready p d pass views b w fl misc : ready e p d -> In (declare_image addTransferOutputView pass views b w fl misc) (rp_images p) ->
  view_in d (attach_view (declare_image addTransferOutputView pass views b w fl misc) (rp_index p)) L_TRANSFER_DST.
Proof. intros R H. apply (R _ H); [reflexivity|]. vm_compute. discriminate. Qed.

Lemma good_one c d x : right g F c d -> legal d x -> (forall d, after d x = d) -> good g F c d (c, [x]).
Proof. intros R L A. apply good_emit; [exact R|split; [exact L|exact I]|]. cbn. apply A. Qed.

Lemma good_copies size final : forall views c d, right g F c d -> (forall v, In v views -> F v) -> pairwise separate_views views ->
  (forall n v, nth_error views n = Some v -> view_in d v (if Nat.even n then L_TRANSFER_SRC else L_TRANSFER_DST)) ->
  good g F c d (image_copies e size final views c).
Proof.
  fix IH 1. intros [|s [|t rest]] c d R Hv Hp Hr; try (apply good_ret, R).
  cbn [image_copies].
  assert (Fs : F s) by (apply Hv; left; reflexivity). assert (Ft : F t) by (apply Hv; right; left; reflexivity).
  inversion Hp as [|? ? Ps Hp1]; subst. inversion Hp1 as [|? ? Pt Hp2]; subst.
  apply good_seq; [apply good_seq|].
  - apply good_one; [exact R| |reflexivity]. cbn [legal]. split.
    + split; [left; reflexivity|]. apply sub_in; [apply (F_ok F HF s Fs)|]. apply (Hr 0%nat s eq_refl).
    + split; [left; reflexivity|]. apply sub_in; [apply (F_ok F HF t Ft)|]. apply (Hr 1%nat t eq_refl).
  - intros _ R1. unfold final_barrier. destruct (N.eqb final L_UNDEFINED); [apply good_ret, R1|]. unfold barrier_to. apply good_barrier; auto.
  - cbn [seq2]. intros _ R1.
    assert (Keep : forall w k, F w -> separate_views t w -> view_in d w k -> view_in (after_all d (snd ((c, [CCopyRegion (i_id (v_image s)) L_TRANSFER_SRC (i_id (v_image t)) L_TRANSFER_DST
             (sub_layers (v_range s)) (sub_layers (v_range t)) (0, 0, 0) (0, 0, 0) size]) >>> (fun c => final_barrier e c t final)))) w k).
    { intros w k Fw Sw Hk. cbn [seq2]. unfold final_barrier, barrier_to. destruct (N.eqb final L_UNDEFINED); [exact Hk|].
      destruct (barrier_cases (e_separate e) c (v_image t) (v_type t) (v_range t) L_UNDEFINED (makeLayoutState final) false) as [[_ ->]|[_ ->]]; cbn [snd app after_all fold_left after]; [|exact Hk].
      intros layer mip Q. rewrite put_out; [apply Hk, Q|]. destruct Sw as [Sw|Sw]; [left; exact Sw|right]. intro Q'. apply (Sw layer mip); [|exact Q]. apply adapt_in_range in Q'. exact Q'. }
    cbn [seq2] in Keep. destruct (final_barrier e c t final) as [c2 l2] eqn:E. cbn [fst snd] in *. apply IH.
    + exact R1.
    + intros v H. apply Hv. right. right. exact H.
    + exact Hp2.
    + intros n v H. apply Keep; [apply Hv; right; right; exact (nth_error_In _ _ H)| |].
      * destruct (Pt v (nth_error_In _ _ H)) as [A _]. exact A.
      * apply (Hr (S (S n)) v H).
Qed.
End Bodies.

Section Graph.
Context (e : env) (g : rgraph) (F : view -> Prop) (HF : regions F).
Lemma start_implicit deps passes : rc_implicit (start_context e deps passes) = [].
Proof.
  unfold start_context. set (c := fold_left rc_addStates deps new_rctx).
  assert (E : rc_implicit c = []).
  { unfold c. assert (G : forall deps c0, rc_implicit c0 = [] -> rc_implicit (fold_left rc_addStates deps c0) = []).
    { induction deps0 as [|x l IH]; intros c0 H; [exact H|]. cbn [fold_left]. apply IH. exact H. }
    apply G. reflexivity. }
  destruct passes; [exact E|]. exact E.
Qed.
Lemma graph_good deps passes d : sound_passes e g F passes -> right g F (start_context e deps passes) d ->
  let '(g', cmds, _) := record_graph e g deps passes in
  all_legal d cmds /\ (forall v, F v -> known_layout (g_final g') v = L_UNDEFINED \/ view_in (after_all d cmds) v (known_layout (g_final g') v)) /\
  right g F (g_final g') (after_all d cmds).
Proof.
  intros H R. unfold record_graph. assert (P : pend (flat_map rp_implicit passes) (start_context e deps passes)) by (intros q v a Hx; rewrite start_implicit in Hx; destruct Hx).
  pose proof (good_loop g F HF e (flat_map rp_implicit passes) passes (start_context e deps passes) d (sound_all g F e passes H) P R) as G.
  destruct (record_loop e g passes (start_context e deps passes)) as [[c l] tr]. destruct G as (A & B & _). cbn [fst snd g_final] in *.
  split; [exact A|]. split; [|exact B]. intros v Fv. destruct (N.eq_dec (known_layout c v) L_UNDEFINED) as [K|K]; [left; exact K|right].
  destruct (B v Fv) as [T|T]; rewrite said_known in T by exact K; [contradiction|exact T].
Qed.
End Graph.

Lemma frames_good F : regions F -> forall l g d,
  (forall v, F v -> known_layout (g_final g) v = L_UNDEFINED \/ view_in d v (known_layout (g_final g) v)) ->
  frames_possible F g d l -> frames_legal g l.
Proof.
  intro HF. induction l as [|f rest IH]; intros g d Hf H; [exact I|]. cbn [frames_possible frames_legal] in *.
  destruct H as (Hp & Hs & Hi & Ho & Hr).
  assert (R : right g F (start_context (fr_env f) (fr_deps f) (fr_passes f)) (fr_start f)).
  { intros v Fv. unfold truthful. rewrite said_spec. fold (input_layout g v).
    destruct (N.eqb_spec (known_layout (start_context (fr_env f) (fr_deps f) (fr_passes f)) v) L_UNDEFINED) as [K|K].
    - destruct (N.eqb_spec (input_layout g v) L_UNDEFINED) as [J|J].
      + fold (known_layout (g_final g) v). destruct (Hf v Fv) as [Z|Z]; [left; exact Z|right; apply (Ho v Fv J), Z].
      + right. apply (Hi v Fv J).
    - destruct (Hs v Fv) as [Z|Z]; [contradiction|right; exact Z]. }
  pose proof (graph_good (fr_env f) g F HF (fr_deps f) (fr_passes f) (fr_start f) Hp R) as G.
  destruct (record_graph (fr_env f) g (fr_deps f) (fr_passes f)) as [[g' cmds] tr] eqn:E. destruct G as (A & B & _).
  split; [exact A|]. apply (IH g' (after_all (fr_start f) cmds)); assumption.
Qed.
