(* Recordings one after the other with render passes kept between them. *)
From Verif Require Import Spec_Frames Proof_Layout Proof_Record Proof_Run2 Proof_Run3 Proof_Device Proof_Device2 Proof_Device3 Proof_Device4 Proof_Device5 Proof_Device6 Proof_Frames.
From Coq Require Import PeanoNat.
Local Open Scope N_scope.

(* What a holder has at an index: nothing, or a render pass for the attachments, that expects nothing of those that are not inputs. *)
Definition held (images : list attach) (i : nat) (d : rdata) : Prop :=
  rd_renderPass d = 0 \/
  (rd_attachments d = filter isTarget images /\
   Forall2 (fun a x => en_view x = attach_view a i /\ ls_layout (en_output x) <> L_UNDEFINED /\ (isInput a = false -> ls_layout (en_input x) = L_UNDEFINED)) (rd_attachments d) (rd_entries d)).
Definition held_all (images : list attach) (t : target) : Prop := (forall i, held images i (pass_data t i)) /\ tg_nexth t <> 0.
Lemma held_new images size n : held_all images (new_target size n).
Proof.
  split; [|discriminate]. intro i. left. unfold pass_data, new_target. cbn [tg_passes]. destruct (nth_in_or_default i (repeat new_rdata n) new_rdata) as [H| ->]; [|reflexivity]. apply repeat_spec in H. rewrite H. reflexivity.
Qed.
Lemma nth_set_other {A} (l : list A) : forall i j x d, i <> j -> nth j (set_nth i x l) d = nth j l d.
Proof. induction l as [|y l IH]; intros [|i] [|j] x d H; cbn; try reflexivity; try congruence. apply IH. congruence. Qed.
Lemma held_holds F p t : (rp_index p < length (tg_passes t))%nat -> held_all (rp_images p) t -> holds F p t.
Proof.
  intros Hi [H N]. split; [exact Hi|]. split; [|exact N]. destruct (H (rp_index p)) as [Z|(A & B)]; [left; exact Z|right]. split; [exact A|].
  clear A. induction B as [|a x l es (H1 & H2 & _) B IH]; constructor; auto.
Qed.

Section Render.
Context (e : env) (g : rgraph).
Lemma target_step_entries F (HF : regions F) p i : (forall a, In a (rp_images p) -> isTarget a = true -> forall c, ls_layout (getNextLayoutState e g c p (attach_view a i)) <> L_UNDEFINED) ->
  (forall a, In a (rp_images p) -> isTarget a = true -> F (attach_view a i)) ->
  forall l b done, (forall a, In a l -> In a (rp_images p)) ->
  Forall2 (fun a x => en_view x = attach_view a i /\ ls_layout (en_output x) <> L_UNDEFINED /\ (isInput a = false -> ls_layout (en_input x) = L_UNDEFINED)) done (rb_entries b) ->
  Forall2 (fun a x => en_view x = attach_view a i /\ ls_layout (en_output x) <> L_UNDEFINED /\ (isInput a = false -> ls_layout (en_input x) = L_UNDEFINED)) (done ++ filter isTarget l)
    (rb_entries (fold_left (target_step e g p i) l b)).
Proof.
  intros HN HF1. induction l as [|a l IH]; intros b done Hl H; [rewrite app_nil_r; exact H|]. cbn [fold_left filter]. destruct (isTarget a) eqn:T.
  2:{ replace (target_step e g p i b a) with b by (unfold target_step; rewrite T; reflexivity). apply IH; [intros x Hx; apply Hl; right; exact Hx|exact H]. }
  replace (done ++ a :: filter isTarget l) with ((done ++ [a]) ++ filter isTarget l) by (rewrite <- app_assoc; reflexivity).
  apply IH; [intros x Hx; apply Hl; right; exact Hx|]. unfold target_step. rewrite T. cbv zeta.
  pose proof (HF1 a (Hl a (or_introl eq_refl)) T) as Fa. rewrite (resolve_plain (attach_view a i) i) by (apply (proj1 HF), Fa).
  destruct (getCurrentLayoutState g (rb_ctx b) (v_image (attach_view a i)) (v_type (attach_view a i)) (v_range (attach_view a i))) as [c1 cur].
  unfold addAttach. destruct (orb (isDepthAttach a) (isStencilAttach a)); cbn [with_depth with_colour rb_entries with_ctx]; apply Forall2_app; try exact H;
    (constructor; [|constructor]); cbn [en_view en_output en_input]; (split; [reflexivity|split; [apply HN; [apply Hl; left; reflexivity|exact T]|intros ->; reflexivity]]).
Qed.
(* The holder after a recording. *)
Lemma held_record F (HF : regions F) p body t c : (rp_index p < length (tg_passes t))%nat -> target_pass g F e p -> held_all (rp_images p) t ->
  held_all (rp_images p) (fst (fst (tg_record e g p (rp_index p) body t c))) /\
  length (tg_passes (fst (fst (tg_record e g p (rp_index p) body t c)))) = length (tg_passes t).
Proof.
  intros Hi (TF & TS & TN) [H Hn]. set (i := rp_index p) in *. unfold tg_record.
  destruct (tg_initialise e g p i t c) as [[t1 c1] made] eqn:E.
  assert (H1 : held_all (rp_images p) t1 /\ length (tg_passes t1) = length (tg_passes t)).
  { unfold tg_initialise in E. destruct (andb _ _); [injection E as <- _ _; split; [split; assumption|reflexivity]|]. injection E as <- _ _. split; [|cbn [tg_passes]; apply set_nth_length].
    split; [|cbn; lia]. intro j. unfold pass_data. cbn [tg_passes]. destruct (Nat.eq_dec i j) as [<-|Hj]; [|rewrite nth_set_other by exact Hj; apply H].
    rewrite nth_set_nth by exact Hi. right. cbn [rd_attachments rd_entries]. split; [reflexivity|].
    apply (target_step_entries F HF p i TN TF (rp_images p) _ []); [auto|constructor]. }
  destruct H1 as [[H1 N1] L1]. unfold tg_begin. destruct (tg_framebuffer i t1) as [t2 fb] eqn:E2.
  assert (H2 : held_all (rp_images p) t2 /\ length (tg_passes t2) = length (tg_passes t1)).
  { unfold tg_framebuffer in E2. destruct (N.eqb (rd_framebuffer (pass_data t1 i)) 0); [|injection E2 as <- _; split; [split; assumption|reflexivity]]. injection E2 as <- _. split; [|cbn [tg_passes]; apply set_nth_length].
    split; [|cbn; lia]. intro j. unfold pass_data at 1. cbn [tg_passes]. destruct (Nat.eq_dec i j) as [<-|Hj]; [|rewrite nth_set_other by exact Hj; apply H1].
    rewrite nth_set_nth by (rewrite L1; exact Hi). apply (H1 i). }
  destruct H2 as [[H2 N2] L2]. cbv beta iota zeta. destruct (body _ i) as [c3 lb]. unfold tg_end. cbn [fst]. split; [split|].
  - intro j. apply (H2 j).
  - exact N2.
  - cbn [tg_emit tg_passes]. congruence.
Qed.
End Render.

Section Loop.
Context (e : env) (g : rgraph) (F : view -> Prop) (HF : regions F).

Definition silent (p : rpass) : rpass :=
  {| rp_id := rp_id p; rp_images := rp_images p; rp_buffers := rp_buffers p; rp_index := rp_index p; rp_compute := rp_compute p; rp_state := rp_state p;
     rp_record := fun c _ => (c, []); rp_pre := rp_pre p; rp_post := rp_post p; rp_implicit := rp_implicit p |}.
Lemma silent_sound acts x : good_pass e g F acts x -> sound_pass e g F acts (silent (fp_pass x)).
Proof.
  intros (Hv & Hp & Hn & Ha & Ho & _). split; [exact Hv|]. split; [exact Hp|]. split; [exact Hn|]. split; [|split; assumption].
  apply sound_neutral. intros c i. split; [reflexivity|constructor].
Qed.
Lemma live_fields xt : let p := live e g xt in let q := fp_pass (fst xt) in rp_id p = rp_id q /\ rp_images p = rp_images q /\ rp_buffers p = rp_buffers q /\ rp_index p = rp_index q /\
  rp_pre p = rp_pre q /\ rp_post p = rp_post q /\ rp_implicit p = rp_implicit q.
Proof. unfold live. destruct (fp_render (fst xt)); repeat split. Qed.
Lemma image_of_live xt a c : record_image e g (live e g xt) a c = record_image e g (fp_pass (fst xt)) a c.
Proof. unfold live. destruct (fp_render (fst xt)); reflexivity. Qed.
Lemma buffer_of_live xt a c : record_buffer (live e g xt) a c = record_buffer (fp_pass (fst xt)) a c.
Proof. unfold live. destruct (fp_render (fst xt)); reflexivity. Qed.
Lemma run_all_ext {A} (f h : A -> rctx -> rctx * list cmd) l : (forall a c, f a c = h a c) -> forall c, run_all f l c = run_all h l c.
Proof. intros E. induction l as [|a l IH]; intro c; [reflexivity|]. rewrite !run_all_cons, E. destruct (h a c) as [c1 l1]. cbn [seq2]. rewrite IH. reflexivity. Qed.

(* The body of a pass, in the context it is recorded with. *)
Definition body_good (acts : list (view * action)) (xt : fpass * target) (c : rctx) (d : layouts) : Prop :=
  let p := live e g xt in
  let '(c', l) := rp_record p c (rp_index p) in
  all_legal d l /\ right g F c' (after_all d l) /\ incl (rc_implicit c') (rc_implicit c) /\
  (forall v, F v -> known_layout c v <> L_UNDEFINED \/ (exists a, In a (rp_images p) /\ same_region (attach_view a (rp_index p)) v /\ isTarget a = true /\ fp_render (fst xt) <> None) ->
     known_layout c' v <> L_UNDEFINED).
Lemma into_good acts xt c d (K : view -> Prop) : good_pass e g F acts (fst xt) -> incl (rp_implicit (fp_pass (fst xt))) acts -> pend acts c -> right g F c d ->
  (forall v, F v -> K v -> known_layout c v <> L_UNDEFINED) ->
  (e_enabled e (rp_id (fp_pass (fst xt))) = true -> forall d', right g F (body_context e g (fp_pass (fst xt)) c) d' -> ready e (fp_pass (fst xt)) d' ->
     (forall v, F v -> K v -> known_layout (body_context e g (fp_pass (fst xt)) c) v <> L_UNDEFINED) -> body_good acts xt (body_context e g (fp_pass (fst xt)) c) d') ->
  fine g F acts d (recordInto e g (live e g xt) c) /\
  forall v, F v -> K v \/ brings e (fst xt) v -> known_layout (fst (recordInto e g (live e g xt) c)) v <> L_UNDEFINED.
Proof.
  intros Gp Hi I0 R Kn Hb. pose proof (silent_sound acts (fst xt) Gp) as Ss. destruct Gp as (Hv & Hp & Hn & Ha & Ho & _).
  set (q := fp_pass (fst xt)) in *. destruct (live_fields xt) as (E1 & E2 & E3 & E4 & E5 & E6 & E7). fold q in E1, E2, E3, E4, E5, E6, E7.
  unfold recordInto. rewrite E1, E2, E3, E4, E5, E6. unfold brings. fold q.
  set (X := if e_enabled e (rp_id q) then _ else _).
  enough (GX : good g F c d X /\ forall v, F v -> known_layout c v <> L_UNDEFINED \/ brings e (fst xt) v -> known_layout (fst X) v <> L_UNDEFINED).
  { destruct X as [c' l]. destruct GX as ((A & B & C) & D). cbn [fst snd] in *. split.
    - split; [exact A|]. cbn [fst snd]. split; [|apply pend_register; [rewrite E7; exact Hi|exact (pend_incl acts c c' C I0)]].
      apply (right_ext g F c'); [intros v _; apply register_known|exact B].
    - intros v Fv H. rewrite register_known. apply D; [exact Fv|]. destruct H as [H|H]; [left; apply Kn; assumption|right; exact H]. }
  unfold X. clear X. destruct (e_enabled e (rp_id q)) eqn:En.
  2:{ split; [apply good_ret, R|]. intros v Fv [H|(H & _)]; [exact H|]. fold q in H. congruence. }
  specialize (Hb eq_refl).
  pose proof (images_ready g F HF e acts (silent q) c d Ss I0 R) as Ir. cbv zeta in Ir.
  change (run_all (record_image e g (silent q)) (rp_images (silent q)) c) with (run_all (record_image e g q) (rp_images q) c) in Ir. destruct Ir as [G1 Rd].
  assert (HvF : forall a, In a (rp_images q) -> F (attach_view a (rp_index q))) by (intros a Hin; apply Hv, (in_map (fun a => attach_view a (rp_index q))), Hin).
  destruct (grows_images g F HF e acts q (rp_images q) Ha HvF c d I0 R) as [W1 T1].
  assert (Eb : body_context e g q c = fst (run_all (fun f c => f c (rp_index q)) (rp_pre q) (fst (run_all (record_buffer q) (rp_buffers q) (fst (run_all (record_image e g q) (rp_images q) c)))))).
  { unfold body_context. cbn [seq2]. destruct (run_all (record_image e g q) (rp_images q) c) as [u1 w1]. cbn [seq2 fst]. destruct (run_all (record_buffer q) (rp_buffers q) u1) as [u2 w2]. cbn [seq2 fst].
    destruct (run_all _ (rp_pre q) u2) as [u3 w3]. reflexivity. }
  cbn [seq2]. rewrite (run_all_ext (record_image e g (live e g xt)) (record_image e g q) (rp_images q)) by (intros; apply image_of_live).
  destruct (run_all (record_image e g q) (rp_images q) c) as [c1 l1]. cbn [fst snd seq2] in *.
  rewrite (run_all_ext (record_buffer (live e g xt)) (record_buffer q) (rp_buffers q)) by (intros; apply buffer_of_live).
  destruct G1 as (A1 & B1 & C1). cbn [fst snd] in *.
  pose proof (good_run_all g F acts (record_buffer q) (rp_buffers q) c1 (after_all d l1) (fun a _ c d _ R => good_record_buffer g F q a c d R) (pend_incl acts c c1 C1 I0) B1) as G2.
  pose proof (buffers_after q (rp_buffers q) c1 (after_all d l1)) as Ab. pose proof (buffers_known q (rp_buffers q) c1) as Kb.
  destruct (run_all (record_buffer q) (rp_buffers q) c1) as [c2 l2]. destruct G2 as (A2 & B2 & C2). cbn [fst snd seq2] in *. rewrite Ab in B2.
  destruct (funs_same (rp_index q) (rp_pre q) (fun f Hf => Hn f (or_introl Hf)) c2) as [Ep Np].
  destruct (run_all (fun (f : rctx -> nat -> rctx * list cmd) c => f c (rp_index q)) (rp_pre q) c2) as [c3 l3]. cbn [fst snd seq2] in *. rewrite Ep in Eb. subst c3. rewrite Eb in Hb.
  assert (Kall : forall v, F v -> known_layout c v <> L_UNDEFINED -> known_layout c2 v <> L_UNDEFINED) by (intros v Fv H; rewrite Kb; apply W1; assumption).
  specialize (Hb (after_all d l1) B2 Rd (fun v Fv Kv => Kall v Fv (Kn v Fv Kv))). unfold body_good in Hb. cbv zeta in Hb. rewrite E4 in Hb.
  destruct (rp_record (live e g xt) c2 (rp_index q)) as [c4 l4]. cbn [seq2]. rewrite E2 in Hb. destruct Hb as (A4 & B4 & C4 & D4).
  destruct (funs_same (rp_index q) (rp_post q) (fun f Hf => Hn f (or_intror Hf)) c4) as [Eq Nq].
  destruct (run_all (fun (f : rctx -> nat -> rctx * list cmd) c => f c (rp_index q)) (rp_post q) c4) as [c5 l5]. cbn [fst snd seq2 emit] in *. subst c5.
  destruct (neutral_all l3 Np (after_all d l1)) as [L3 A3]. destruct (neutral_all l5 Nq (after_all (after_all d l1) l4)) as [L5 A5].
  split.
  - unfold good. cbn [fst snd app].
    assert (Dx : after_all d (((((l1 ++ l2) ++ l3) ++ l4) ++ l5) ++ [CTimerEnd (rp_id q); CEndBlock]) = after_all (after_all d l1) l4).
    { rewrite !after_app, Ab, A3, A5. reflexivity. }
    split; [|split].
    + cbn [all_legal legal after]. split; [exact I|]. split; [exact I|]. repeat (apply legal_app; split).
      * exact A1.
      * exact A2.
      * rewrite after_app, Ab. exact L3.
      * rewrite !after_app, Ab, A3. exact A4.
      * rewrite !after_app, Ab, A3. exact L5.
      * cbn. auto.
    + cbn [after_all fold_left after]. change (fold_left after (((((l1 ++ l2) ++ l3) ++ l4) ++ l5) ++ [CTimerEnd (rp_id q); CEndBlock]) d) with (after_all d (((((l1 ++ l2) ++ l3) ++ l4) ++ l5) ++ [CTimerEnd (rp_id q); CEndBlock])).
      rewrite Dx. exact B4.
    + exact (incl_tran C4 (incl_tran C2 C1)).
  - intros v Fv H. apply D4; [exact Fv|]. destruct H as [H|(_ & a & Ia & Sa & [[Ta Ua]|[Ta Ra]])].
    + left. apply Kall; assumption.
    + left. rewrite <- (region_known c2 (attach_view a (rp_index q)) v); [|apply (F_ok F HF), HvF, Ia|apply (F_ok F HF), Fv|exact Sa]. rewrite Kb. apply T1; assumption.
    + right. exists a. auto.
Qed.
End Loop.
