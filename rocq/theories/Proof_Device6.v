(* The body of a render pass is sound. *)
From Verif Require Import Spec_Device Proof_Layout Proof_Record Proof_Run2 Proof_Run3 Proof_Device Proof_Device2 Proof_Device3 Proof_Device4.
From Coq Require Import PeanoNat.
Local Open Scope N_scope.

Section Render.
Context (e : env) (g : rgraph) (F : view -> Prop) (HF : regions F).

Lemma proper_target_pass p : proper_targets e F p -> target_pass g F e p.
Proof.
  intros (Hv & Hi & Hl & Hp).
  assert (InV : forall a v, In a (rp_images p) -> In v (attach_views a) -> F v).
  { intros a v Ha Hv'. apply Hv. apply in_flat_map. exists a. auto. }
  assert (Dec : forall v s, In (v, s) (declared (e_separate e) p) -> F v /\ ls_layout s <> L_UNDEFINED).
  { intros v s H. unfold declared in H. apply in_flat_map in H. destruct H as (a & Ha & H). apply in_flat_map in H. destruct H as (w & Hw & H).
    assert (Fw : F w) by (apply (InV a); assumption). unfold resolve_all in H. rewrite (proj2 (proj1 HF w Fw)) in H. cbn [map] in H. destruct H as [E|[]]. injection E as <- <-.
    split; [exact Fw|]. cbn. apply Hl, Ha. }
  split; [|split; [apply pairwise_filter, Hp|]].
  - intros a Ha _. apply (InV a); [exact Ha|apply Hi, Ha].
  - intros a Ha _ c. apply (next_not_undefined e g c p (attach_view a (rp_index p))
      (mk_lstate (a_getImageLayout a (e_separate e)) (a_getAccessMask a) (a_getPipelineStageFlags a (rp_compute p)))).
    + intros v s H. destruct (Dec v s H) as [Fv _]. destruct (F_ok F HF v Fv) as [V1 V2]. rewrite virtual_not3d by exact V2. exact V1.
    + unfold declared. apply in_flat_map. exists a. split; [exact Ha|]. apply in_flat_map. exists (attach_view a (rp_index p)). split; [apply Hi, Ha|].
      unfold resolve_all. rewrite (proj2 (proj1 HF _ (InV a _ Ha (Hi a Ha)))). left. reflexivity.
    + intros w s H. apply (Dec w s H).
Qed.

Lemma sound_render p body t : proper_targets e F p -> neutral_fun body -> holds F p t ->
  (rd_renderPass (pass_data t (rp_index p)) = 0 \/ forall x, In x (rd_entries (pass_data t (rp_index p))) -> ls_layout (en_input x) = L_UNDEFINED) ->
  sound_body e g F (render_pass e g p body t).
Proof.
  intros Hp Hb Ht Hc. apply sound_of_good. intros c d R _. cbn [render_pass rp_record rp_index].
  pose proof (good_tg_record g F HF e p body t c d Hb (proper_target_pass p Hp) Ht R) as G.
  assert (Q : snd (tg_initialise e g p (rp_index p) t c) = true \/
   forall x, In x (rd_entries (pass_data t (rp_index p))) -> ls_layout (en_input x) = L_UNDEFINED \/ known_layout c (en_view x) <> L_UNDEFINED).
  { destruct Hc as [Hc|Hc]; [left|right; intros x Hx; left; apply Hc, Hx]. unfold tg_initialise. rewrite Hc. reflexivity. }
  specialize (G Q). destruct (tg_record e g p (rp_index p) body t c) as [[t' c'] l]. destruct G as (A & B & C & _). split; [exact A|]. split; [exact B|]. cbn [fst]; rewrite C; apply incl_refl.
Qed.

(* Without input target, the render pass kept by the holder never expects anything. *)
Lemma no_input_entries p t c : (forall a, In a (rp_images p) -> isTarget a = true -> isInput a = false) -> holds F p t -> 
  (forall a, In a (rp_images p) -> isTarget a = true -> F (attach_view a (rp_index p))) ->
  snd (tg_initialise e g p (rp_index p) t c) = true ->
  forall x, In x (rd_entries (pass_data (fst (fst (tg_initialise e g p (rp_index p) t c))) (rp_index p))) -> ls_layout (en_input x) = L_UNDEFINED.
Proof.
  intros Hn (Hlen & _) _. unfold tg_initialise. destruct (andb _ _); cbn [fst snd]; [discriminate|]. intros _.
  unfold pass_data at 1. cbn [tg_passes]. rewrite nth_set_nth by exact Hlen. cbn [rd_entries].
  unfold build_targets.
  assert (G : forall l b, (forall a, In a l -> In a (rp_images p)) -> (forall x, In x (rb_entries b) -> ls_layout (en_input x) = L_UNDEFINED) ->
    forall x, In x (rb_entries (fold_left (target_step e g p (rp_index p)) l b)) -> ls_layout (en_input x) = L_UNDEFINED).
  { induction l as [|a l IH]; intros b Hs Hb x Hx; [apply Hb, Hx|]. cbn [fold_left] in Hx. revert Hx. apply IH; [intros y Hy; apply Hs; right; exact Hy|].
    intros y Hy. unfold target_step in Hy. destruct (isTarget a) eqn:T; [|apply Hb, Hy]. cbn zeta in Hy.
    rewrite (Hn a (Hs a (or_introl eq_refl)) T) in Hy.
    destruct (getCurrentLayoutState g (rb_ctx b) _ _ _) as [c1 cur]. unfold addAttach in Hy. destruct (orb (isDepthAttach a) (isStencilAttach a)); cbn in Hy; apply in_app_or in Hy; destruct Hy as [Hy|[<-|[]]]; try (apply Hb, Hy); reflexivity. }
  apply G; [auto|intros x []].
Qed.
End Render.
