(* The declared output of a view, in the last render pass that uses its image. *)
From Verif Require Import Spec_Inout Proof_Layout Proof_Record Proof_Run2 Proof_Run3 Proof_Device Proof_Device2 Proof_Device3 Proof_Device4 Proof_Device5 Proof_Device6 Proof_Target Proof_Frames Proof_Inout.
From Coq Require Import Lia PeanoNat.
Local Open Scope N_scope.

(* What the opening of a pass does to the answers of the next state. *)
Lemma next_barrier sep c im vt r init wanted force : rc_next (fst (memoryBarrier sep c im vt r init wanted force)) = rc_next c.
Proof. unfold memoryBarrier. cbv zeta. match goal with |- context [if ?b then _ else _] => destruct b; reflexivity end. Qed.
Lemma next_seq x f : rc_next (fst (x >>> f)) = rc_next (fst (f (fst x))).
Proof. destruct x as [c l]. cbn [seq2 fst]. destruct (f c). reflexivity. Qed.
Lemma next_final e c v final : rc_next (fst (final_barrier e c v final)) = rc_next c.
Proof. unfold final_barrier. destruct (N.eqb _ _); [reflexivity|apply next_barrier]. Qed.
Lemma next_implicit e acts i : (forall v tag, In (v, AUser tag) acts -> neutral_fun (e_action e tag)) -> forall fuel c v, pend acts c ->
  rc_next (fst (runImplicit_fuel fuel e c i v)) = rc_next c.
Proof.
  intro Ha. induction fuel as [|fuel IH]; intros c v P; cbn [runImplicit_fuel]; destruct (take_first (v_id v) (rc_implicit c)) as [[[p a] rest]|] eqn:E; try reflexivity.
  - destruct (e_enabled e p); reflexivity.
  - destruct (e_enabled e p); [reflexivity|]. destruct (take_first_in _ _ _ _ _ E) as [(u & Hu & Eu) Hr].
    assert (P1 : pend acts (set_implicit c rest)) by (apply (pend_incl acts c); [exact Hr|exact P]).
    destruct a as [src dst w h final|src dst [sx sy] [sw sh] [dx dy] [dw dh] filter final|views final|tag].
    + rewrite next_seq, next_final, next_seq. cbn [emit fst]. rewrite next_seq. unfold barrier_to at 1. rewrite next_barrier, next_seq. unfold barrier_to. rewrite next_barrier, (IH _ _ P1). reflexivity.
    + rewrite next_seq, next_final, next_seq. cbn [emit fst]. rewrite next_seq. unfold barrier_to at 1. rewrite next_barrier, next_seq. unfold barrier_to. rewrite next_barrier, (IH _ _ P1). reflexivity.
    + cbv zeta. rewrite next_seq, next_final, next_seq. cbn [emit fst]. unfold barrier_to. rewrite next_barrier. reflexivity.
    + rewrite (proj1 (Ha u tag (P p u _ Hu) (set_implicit c rest) i)). reflexivity.
Qed.
Lemma next_current g c im vt r : rc_next (fst (getCurrentLayoutState g c im vt r)) = rc_next c.
Proof. destruct (getCurrentLayoutState g c im vt r) as [c' s] eqn:E. apply (current_next _ _ _ _ _ _ _ E). Qed.
Lemma next_image e g acts p a c : (forall v tag, In (v, AUser tag) acts -> neutral_fun (e_action e tag)) -> pend acts c -> rc_next (fst (record_image e g p a c)) = rc_next c.
Proof.
  intros Ha P. unfold record_image. rewrite next_seq. pose proof (next_implicit e acts (rp_index p) Ha (length (rc_implicit c)) c (attach_view a (rp_index p)) P) as E. fold (runImplicit e c (rp_index p) (attach_view a (rp_index p))) in E.
  destruct (runImplicit e c (rp_index p) (attach_view a (rp_index p))) as [c1 l1]. cbn [fst] in *. rewrite <- E. destruct (andb _ _); [|reflexivity]. cbv zeta.
  set (X := if isInput a then _ else _). assert (EX : rc_next (fst X) = rc_next c1) by (unfold X; destruct (isInput a); [apply next_current|reflexivity]).
  destruct X as [c2 cur]. cbn [fst] in EX. rewrite <- EX. unfold memoryBarrier_view. destruct (isClearableImage a).
  - rewrite next_seq, next_barrier, next_seq. cbn [emit fst]. apply next_barrier.
  - apply next_barrier.
Qed.
Lemma next_buffer p a c : rc_next (fst (record_buffer p a c)) = rc_next c.
Proof.
  assert (B : forall c b o s m t w f, rc_next (fst (bufferBarrier c b o s m t w f)) = rc_next c) by (intros; unfold bufferBarrier; cbv zeta; match goal with |- context [if ?b then _ else _] => destruct b; reflexivity end).
  unfold record_buffer. destruct (andb _ _); [|reflexivity]. cbv zeta. destruct (isClearableBuffer a); [|apply B]. rewrite next_seq, B, next_seq. cbn [emit fst]. apply B.
Qed.
Lemma next_buffers p l : forall c, rc_next (fst (run_all (record_buffer p) l c)) = rc_next c.
Proof. induction l as [|a l IH]; intro c; [reflexivity|]. rewrite run_all_cons, next_seq, IH. apply next_buffer. Qed.

Section Output.
Context (e : env) (g : rgraph) (F : view -> Prop) (HF : regions F).

Lemma sound_neutral_actions (acts : list (view * action)) (i : nat) : (forall x, In x acts -> sound_action e F i (snd x)) -> forall (v : view) (tag : N), In (v, AUser tag) acts -> neutral_fun (e_action e tag).
Proof. intros H v tag Hin. apply (H _ Hin). Qed.
Lemma images_next acts p c d : sound_pass e g F acts p -> pend acts c -> right g F c d -> rc_next (fst (run_all (record_image e g p) (rp_images p) c)) = rc_next c.
Proof.
  intros (Hv & _ & _ & _ & Ha & _) P R.
  assert (HvF : forall a, In a (rp_images p) -> F (attach_view a (rp_index p))) by (intros a Hi; apply Hv, (in_map (fun a => attach_view a (rp_index p))), Hi).
  clear Hv. revert HvF c d P R. generalize (rp_images p). intro l. induction l as [|a l IH]; intros HvF c d P R; [reflexivity|].
  rewrite run_all_cons. destruct (good_record_image g F HF e acts p a c d Ha (HvF a (or_introl eq_refl)) P R) as ((_ & B & C) & _).
  pose proof (next_image e g acts p a c (sound_neutral_actions acts _ Ha) P) as E. rewrite next_seq. destruct (record_image e g p a c) as [c1 l1]. cbn [fst snd] in *. rewrite <- E.
  apply (IH (fun b Hb => HvF b (or_intror Hb)) c1 (after_all d l1)); [exact (pend_incl acts c c1 C P)|exact B].
Qed.
(* The images keep a view left alone. *)
Lemma images_keep acts p v k c d : sound_pass e g F acts p -> leaves_alone acts v p -> pend acts c -> right g F c d -> view_in d v k ->
  view_in (after_all d (snd (run_all (record_image e g p) (rp_images p) c))) v k.
Proof.
  intros (Hv & _ & _ & _ & Ha & _) (L1 & L2 & _) P R.
  assert (HvF : forall a, In a (rp_images p) -> F (attach_view a (rp_index p))) by (intros a Hi; apply Hv, (in_map (fun a => attach_view a (rp_index p))), Hi).
  clear Hv. revert HvF L1 L2 c d P R. generalize (rp_images p). intro l. induction l as [|a l IH]; intros HvF L1 L2 c d P R V; [exact V|].
  rewrite run_all_cons. destruct (good_record_image g F HF e acts p a c d Ha (HvF a (or_introl eq_refl)) P R) as ((_ & B & C) & K & _).
  destruct (record_image e g p a c) as [c1 l1]. cbn [fst snd seq2] in *.
  assert (V1 : view_in (after_all d l1) v k).
  { apply K; [|exact V]. intros t [-> |Ht]; [apply L1; left; reflexivity|apply (L2 a); [left; reflexivity|exact Ht]]. }
  specialize (IH (fun b Hb => HvF b (or_intror Hb)) (fun b Hb => L1 b (or_intror Hb)) (fun b w Hb => L2 b w (or_intror Hb)) c1 (after_all d l1) (pend_incl acts c c1 C P) B V1).
  destruct (run_all (record_image e g p) l c1) as [c2 l2]. cbn [snd] in *. rewrite after_app. exact IH.
Qed.
(* A pass, split at its body. *)
Lemma into_parts acts p c d : sound_pass e g F acts p -> e_enabled e (rp_id p) = true -> pend acts c -> right g F c d ->
  exists before cb tail, snd (recordInto e g p c) = before ++ snd (rp_record p cb (rp_index p)) ++ tail /\ rc_next cb = rc_next c /\ Forall neutral tail /\
    (forall v k, leaves_alone acts v p -> view_in d v k -> view_in (after_all d before) v k).
Proof.
  intros Sp En I0 R. pose proof Sp as (_ & _ & Hn & _ & _). unfold recordInto. rewrite En.
  pose proof (images_next acts p c d Sp I0 R) as N1. pose proof (fun v k L => images_keep acts p v k c d Sp L I0 R) as K1. cbn [seq2].
  destruct (run_all (record_image e g p) (rp_images p) c) as [c1 l1]. cbn [fst snd] in N1, K1. cbn [seq2].
  pose proof (buffers_after p (rp_buffers p) c1 (after_all d l1)) as Ab. pose proof (next_buffers p (rp_buffers p) c1) as N2.
  destruct (run_all (record_buffer p) (rp_buffers p) c1) as [c2 l2]. cbn [seq2 fst snd] in *.
  destruct (funs_same (rp_index p) (rp_pre p) (fun f Hf => Hn f (or_introl Hf)) c2) as [Ep Np].
  destruct (run_all (fun (f : rctx -> nat -> rctx * list cmd) c => f c (rp_index p)) (rp_pre p) c2) as [c3 l3]. cbn [fst snd seq2] in *. subst c3.
  destruct (rp_record p c2 (rp_index p)) as [c4 l4] eqn:E4. cbn [seq2].
  destruct (funs_same (rp_index p) (rp_post p) (fun f Hf => Hn f (or_intror Hf)) c4) as [_ Nq].
  destruct (run_all (fun (f : rctx -> nat -> rctx * list cmd) c => f c (rp_index p)) (rp_post p) c4) as [c5 l5]. cbn [seq2 emit snd] in *.
  exists (CBeginBlock (rp_id p) :: CTimerBegin (rp_id p) :: l1 ++ l2 ++ l3), c2, (l5 ++ [CTimerEnd (rp_id p); CEndBlock]).
  rewrite E4. cbn [snd]. split; [cbn [app]; rewrite <- !app_assoc; reflexivity|]. split; [congruence|]. split.
  - apply Forall_app. split; [exact Nq|]. repeat constructor.
  - intros v k L V. cbn [after_all fold_left after]. change (view_in (after_all d (l1 ++ l2 ++ l3)) v k). rewrite !after_app, Ab, (proj2 (neutral_all l3 Np _)). apply K1; assumption.
Qed.
Lemma into_keep acts p v k c d : sound_pass e g F acts p -> (e_enabled e (rp_id p) = true -> leaves_alone acts v p) -> pend acts c -> right g F c d -> view_in d v k ->
  view_in (after_all d (snd (recordInto e g p c))) v k.
Proof.
  intros Sp L I0 R V. destruct (e_enabled e (rp_id p)) eqn:En; [|unfold recordInto; rewrite En; exact V].
  destruct (into_parts acts p c d Sp En I0 R) as (b & cb & t & -> & _ & Nt & K). rewrite !after_app, (proj2 (neutral_all t Nt _)). apply (L eq_refl). apply K; [apply L; reflexivity|exact V].
Qed.
Lemma loop_keep acts v k passes : forall c d, (forall q, In q passes -> sound_pass e g F acts q /\ incl (rp_implicit q) acts) ->
  (forall q, In q passes -> e_enabled e (rp_id q) = true -> leaves_alone acts v q) -> pend acts c -> right g F c d -> view_in d v k ->
  view_in (after_all d (snd (fst (record_loop e g passes c)))) v k.
Proof.
  induction passes as [|q rest IH]; intros c d H L I0 R V; [exact V|]. cbn [record_loop]. destruct (H q (or_introl eq_refl)) as [Sq Iq].
  assert (P1 : pend acts (prepare e g q rest c)) by (unfold pend; rewrite prepare_implicit; exact I0).
  pose proof (good_recordInto g F HF e acts q (prepare e g q rest c) d Sq Iq P1 (prepare_right g F e q rest c d R)) as G.
  pose proof (into_keep acts q v k (prepare e g q rest c) d Sq (L q (or_introl eq_refl)) P1 (prepare_right g F e q rest c d R) V) as V1.
  destruct (recordInto e g q (prepare e g q rest c)) as [c1 l1]. destruct G as (_ & B & C). cbn [fst snd] in *.
  specialize (IH c1 (after_all d l1) (fun x Hx => H x (or_intror Hx)) (fun x Hx => L x (or_intror Hx)) C B V1).
  destruct (record_loop e g rest c1) as [[c2 l2] tr]. cbn [fst snd] in *. rewrite after_app. exact IH.
Qed.
(* A recording, split at the body of a pass; the passes after it leave a view alone. *)
Lemma loop_parts acts p v k : e_enabled e (rp_id p) = true -> forall passes1 passes2 c d, (forall q, In q (passes1 ++ p :: passes2) -> sound_pass e g F acts q /\ incl (rp_implicit q) acts) ->
  (forall q, In q passes2 -> e_enabled e (rp_id q) = true -> leaves_alone acts v q) -> pend acts c -> right g F c d ->
  exists before cb tail c0, snd (fst (record_loop e g (passes1 ++ p :: passes2) c)) = before ++ snd (rp_record p cb (rp_index p)) ++ tail /\
    rc_next cb = rc_next (prepare e g p passes2 c0) /\
    (view_in (after_all d (before ++ snd (rp_record p cb (rp_index p)))) v k -> view_in (after_all d (before ++ snd (rp_record p cb (rp_index p)) ++ tail)) v k).
Proof.
  intros En. induction passes1 as [|q passes1 IH]; intros passes2 c d H L I0 R; cbn [app record_loop].
  - assert (P1 : pend acts (prepare e g p passes2 c)) by (unfold pend; rewrite prepare_implicit; exact I0). destruct (H p (or_introl eq_refl)) as [Sp Ip].
    pose proof (good_recordInto g F HF e acts p (prepare e g p passes2 c) d Sp Ip P1 (prepare_right g F e p passes2 c d R)) as G.
    destruct (into_parts acts p (prepare e g p passes2 c) d Sp En P1) as (b & cb & t & E & N & Nt & _); [apply prepare_right, R|].
    destruct (recordInto e g p (prepare e g p passes2 c)) as [c1 l1]. cbn [fst snd] in *. destruct G as (_ & B & C). cbn [fst snd] in B, C.
    pose proof (fun V => loop_keep acts v k passes2 c1 (after_all d l1) (fun x Hx => H x (or_intror Hx)) L C B V) as K.
    destruct (record_loop e g passes2 c1) as [[c2 l2] tr]. cbn [fst snd] in *.
    exists b, cb, (t ++ l2), c. split; [rewrite E, <- !app_assoc; reflexivity|]. split; [exact N|]. intro V.
    replace (b ++ snd (rp_record p cb (rp_index p)) ++ t ++ l2) with (l1 ++ l2) by (rewrite E, <- !app_assoc; reflexivity). rewrite after_app. apply K.
    rewrite E, app_assoc, after_app, (proj2 (neutral_all t Nt _)). exact V.
  - set (rest := passes1 ++ p :: passes2) in *. destruct (H q (or_introl eq_refl)) as [Sq Iq].
    assert (P1 : pend acts (prepare e g q rest c)) by (unfold pend; rewrite prepare_implicit; exact I0).
    pose proof (good_recordInto g F HF e acts q (prepare e g q rest c) d Sq Iq P1 (prepare_right g F e q rest c d R)) as G.
    destruct (recordInto e g q (prepare e g q rest c)) as [c1 l1]. destruct G as (_ & B & C). cbn [fst snd] in *.
    destruct (IH passes2 c1 (after_all d l1) (fun x Hx => H x (or_intror Hx)) L C B) as (b & cb & t & c0 & E & N & K).
    fold rest in E. destruct (record_loop e g rest c1) as [[c2 l2] tr]. cbn [fst snd] in *.
    exists (l1 ++ b), cb, t, c0. rewrite E, <- !app_assoc. split; [reflexivity|]. split; [exact N|].
    intro V. rewrite (after_app d l1). apply K. rewrite <- (after_app d l1). exact V.
Qed.

(* The next layout of a view whose image no later pass uses: the declared output. *)
Lemma next_output p rest c0 v s0 : valid_views (e_separate e) p -> (forall b, In b rest -> valid_views (e_separate e) b) ->
  In (v, s0) (declared (e_separate e) p) ->
  (forall b, In b rest -> e_enabled e (rp_id b) = true -> ~ share_layer (e_separate e) p b (i_id (v_image v))) ->
  ls_layout (output_state g v) <> L_UNDEFINED ->
  ls_layout (getNextLayoutState e g (prepare e g p rest c0) p v) = ls_layout (output_state g v).
Proof.
  intros Vp Vb Hin Hno Ho. unfold output_state in *. unfold getNextLayoutState.
  destruct rest as [|x y].
  - cbn [prepare setNextPipelineState rc_next]. apply N.eqb_neq in Ho. rewrite Ho. reflexivity.
  - assert (Hr0 : ls_layout (getLayoutState (rc_next (prepare e g p (x :: y) c0)) (v_image v) (v_type v) (v_range v)) = L_UNDEFINED).
    { unfold prepare. cbn [setNextPipelineState rc_next]. unfold getLayoutState.
      destruct (pass_has_image (e_separate e) p v s0 Vp Hin) as [cur Hcur]. destruct (pass_layouts_wf (e_separate e) p Vp) as [Wk Wp].
      rewrite (gather_none e (x :: y) _ _ _ cur); [reflexivity|exact Wk|exact Hcur|].
      intros b Hb Heb. destruct (mergeRanges (pass_layouts (e_separate e) b) (i_id (v_image v)) cur) eqn:Em; [reflexivity|].
      exfalso. apply (Hno b Hb Heb). apply (merge_shares (e_separate e) p b (i_id (v_image v)) cur); auto. rewrite Em. discriminate. }
    rewrite Hr0. cbn [N.eqb L_UNDEFINED negb]. apply N.eqb_neq in Ho. rewrite Ho. reflexivity.
Qed.

(* A render pass made now: its target is left in its next layout. *)
Lemma render_next p body t c d a : proper_targets e F p -> neutral_fun body -> holds F p t -> rd_renderPass (pass_data t (rp_index p)) = 0 ->
  In a (rp_images p) -> isTarget a = true ->
  view_in (after_all d (snd (rp_record (render_pass e g p body t) c (rp_index p)))) (attach_view a (rp_index p))
    (ls_layout (getNextLayoutState e g c p (attach_view a (rp_index p)))).
Proof.
  intros Hp Hb (Hlen & _ & Hn) H0 Ia T. cbn [render_pass rp_record rp_index]. destruct (proper_target_pass e g F HF p Hp) as (TF & TS & TN).
  set (i := rp_index p) in *. unfold tg_record.
  destruct (tg_initialise e g p i t c) as [[t1 c1] made] eqn:E. unfold tg_initialise in E. rewrite H0 in E. cbn [N.eqb negb andb] in E. injection E as Et Ec _.
  pose proof (filled_all e g p i c) as Fi. pose proof (built_all g F HF e p i c (rp_images p) []) as Bu. cbn [app] in Bu.
  assert (B0 : built g F e i c [] {| rb_ctx := c; rb_descs := []; rb_entries := []; rb_clear := []; rb_blend := []; rb_colours := []; rb_depth := (0, 0) |}) by (constructor; [constructor|reflexivity|reflexivity]).
  specialize (Bu _ B0 (fun x Hx Tx => conj (TF x Hx Tx) (TN x Hx Tx)) (fun x y Hx => match Hx with end) TS).
  change (fold_left (target_step e g p i) (rp_images p) {| rb_ctx := c; rb_descs := []; rb_entries := []; rb_clear := []; rb_blend := []; rb_colours := []; rb_depth := (0, 0) |}) with (build_targets e g p i c) in Bu.
  set (b := build_targets e g p i c) in *.
  assert (D : rd_entries (pass_data t1 i) = rb_entries b /\ rd_attachments (pass_data t1 i) = filter isTarget (rp_images p) /\ (i < length (tg_passes t1))%nat).
  { subst t1. unfold pass_data. cbn [tg_passes]. rewrite nth_set_nth by exact Hlen. rewrite set_nth_length. repeat split. exact Hlen. }
  destruct D as (D1 & D2 & D3). clear Et Ec.
  destruct (framebuffer_data i t1 D3) as (_ & F2 & F3 & _). unfold tg_begin. destruct (tg_framebuffer i t1) as [t2 fb]. cbn [fst] in F2, F3. cbv beta iota zeta.
  match goal with |- context [body ?x i] => destruct (Hb x i) as [_ Nb]; destruct (body x i) as [c3 lb] end. cbn [snd] in Nb. unfold tg_end. cbn [snd].
  change (pass_data (tg_emit t2 [TBegin (rd_renderPass (pass_data t2 i)) fb (rd_area (pass_data t2 i)) (rd_clear (pass_data t2 i))]) i) with (pass_data t2 i).
  set (infos := begun (pass_data t2 i)). assert (Infos : infos = begun (pass_data t2 i)) by reflexivity. unfold begun in Infos. rewrite F2, F3, D1, D2 in Infos.
  cbn [after_all fold_left after]. change (fold_left after (lb ++ [CEndRenderPass infos]) d) with (after_all d (lb ++ [CEndRenderPass infos])).
  rewrite after_app, (proj2 (neutral_all lb Nb d)). cbn [after_all fold_left after]. rewrite Infos.
  destruct Bu as [B1 _ _]. destruct Fi as [_ Fd Fe _ _ _ _].
  (* each entry: its view and its layout *)
  set (nx := fun x : attach => ls_layout (getNextLayoutState e g c p (resolveView (attach_view x i) i))).
  assert (G : Forall2 (fun x y => en_view y = attach_view x i /\ ls_layout (en_output y) = nx x) (filter isTarget (rp_images p)) (rb_entries b)).
  { clear - B1 Fd Fe. revert B1 Fe. generalize (rb_entries b). induction Fd as [|x dd l ds [_ Hd] Hds IH]; intros es B1 Fe; inversion B1; subst; inversion Fe; subst; constructor.
    - match goal with H : described _ _ _ _ _ _ |- _ => destruct H as (Hv & _) end. match goal with H : _ /\ ad_final _ = _ |- _ => destruct H as (_ & Hf) end. split; [exact Hv|]. rewrite <- Hf. exact Hd.
    - apply IH; assumption. }
  assert (SameEnds : forall d0, fold_left (fun d (x : view * N * N * tops) => put d (i_id (v_image (fst (fst (fst x))))) (v_range (fst (fst (fst x)))) (snd (fst x)))
     (map (fun xa => (en_view (fst xa), ls_layout (en_input (fst xa)), ls_layout (en_output (fst xa)), described_ops (fst xa) (snd xa))) (combine (rb_entries b) (filter isTarget (rp_images p)))) d0 =
     fold_left (fun d x => put d (i_id (v_image (fst x))) (v_range (fst x)) (snd x)) (map (fun x => (attach_view x i, nx x)) (filter isTarget (rp_images p))) d0).
  { clear - G. induction G as [|x y l es [Hv Ho] Hr IH]; intro d0; [reflexivity|]. cbn [combine map fold_left fst snd]. rewrite Hv, Ho. apply IH. }
  rewrite SameEnds.
  assert (Ia' : In a (filter isTarget (rp_images p))) by (apply filter_In; auto).
  rewrite <- (resolve_plain (attach_view a i) i (proj2 (proj1 HF _ (TF a Ia T)))) at 2. change (ls_layout (getNextLayoutState e g c p (resolveView (attach_view a i) i))) with (nx a).
  apply put_views_in; [|apply in_map_iff; exists a; auto].
  clear - TS. induction TS as [|x l H P IH]; cbn [map]; constructor; [|exact IH]. intros y Hy. apply in_map_iff in Hy. destruct Hy as (z & <- & Hz). cbn [fst]. apply (H z Hz).
Qed.

Lemma output_honoured deps passes1 p body t passes2 a d :
  let q := render_pass e g p body t in let passes := passes1 ++ q :: passes2 in let v := attach_view a (rp_index p) in
  sound_passes e g F passes -> right g F (start_context e deps passes) d ->
  e_enabled e (rp_id p) = true -> proper_targets e F p -> neutral_fun body -> holds F p t -> rd_renderPass (pass_data t (rp_index p)) = 0 ->
  In a (rp_images p) -> isTarget a = true -> ls_layout (output_state g v) <> L_UNDEFINED ->
  (forall b, In b passes2 -> valid_views (e_separate e) b /\
    (e_enabled e (rp_id b) = true -> ~ share_layer (e_separate e) p b (i_id (v_image v)) /\ leaves_alone (flat_map rp_implicit passes) v b)) ->
  view_in (after_all d (snd (fst (record_graph e g deps passes)))) v (ls_layout (output_state g v)).
Proof.
  intros q passes v Hs R En Hp Hb Ht H0 Ia T Ho Hl.
  assert (P : pend (flat_map rp_implicit passes) (start_context e deps passes)) by (intros x w y Hx; rewrite start_implicit in Hx; destruct Hx).
  destruct (loop_parts (flat_map rp_implicit passes) q v (ls_layout (output_state g v)) En passes1 passes2 (start_context e deps passes) d (sound_all g F e passes Hs)
    (fun b Hb' Eb => proj2 (proj2 (Hl b Hb') Eb)) P R) as (bf & cb & tl & c0 & E & N & K).
  unfold record_graph. fold passes in E. destruct (record_loop e g passes (start_context e deps passes)) as [[c l] tr]. cbn [fst snd] in *. subst l. apply K.
  rewrite after_app. pose proof (render_next p body t cb (after_all d bf) a Hp Hb Ht H0 Ia T) as V. fold v q in V.
  replace (ls_layout (output_state g v)) with (ls_layout (getNextLayoutState e g cb p v)); [exact V|].
  rewrite (next_ext e g _ cb p v N). change (getNextLayoutState e g (prepare e g q passes2 c0) p v) with (getNextLayoutState e g (prepare e g q passes2 c0) q v).
  destruct Hp as (A1 & A2 & A3 & A4). assert (Iv : In v (attach_views a)) by (apply A2, Ia).
  assert (Fv : F v) by (apply A1; apply in_flat_map; exists a; auto).
  apply (next_output q passes2 c0 v (mk_lstate (a_getImageLayout a (e_separate e)) (a_getAccessMask a) (a_getPipelineStageFlags a (rp_compute p)))).
  - intros w s H. unfold declared in H. apply in_flat_map in H. destruct H as (a' & Ha & H). apply in_flat_map in H. destruct H as (w' & Hw & H).
    assert (Fw : F w') by (apply A1; apply in_flat_map; exists a'; auto). unfold resolve_all in H. rewrite (proj2 (proj1 HF w' Fw)) in H. cbn [map] in H. destruct H as [Ew|[]]. injection Ew as <- <-.
    destruct (F_ok F HF w' Fw) as [V1 V2]. rewrite virtual_not3d by exact V2. exact V1.
  - intros b Hb'. apply (Hl b Hb').
  - unfold declared. apply in_flat_map. exists a. split; [exact Ia|]. apply in_flat_map. exists v. split; [exact Iv|]. unfold resolve_all. rewrite (proj2 (proj1 HF v Fv)). left. reflexivity.
  - intros b Hb' Eb. exact (proj1 (proj2 (Hl b Hb') Eb)).
  - exact Ho.
Qed.
End Output.
