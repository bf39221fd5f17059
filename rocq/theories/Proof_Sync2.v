(* Proofs about memory dependencies: passes and the whole recording. *)
From Verif Require Import Spec_Sync Proof_Layout Proof_Record Proof_Run2 Proof_Run3 Proof_Device Proof_Sync.
Local Open Scope N_scope.

Section Passes.
Context (e : env) (g : rgraph) (w : view) (Hw : view_ok w).
Context (Pi : plain_state (view_state (g_inputs g) w)) (Pf : plain_state (view_state (rc_images (g_final g)) w)).

Lemma set_same_plain c v s : view_ok v -> same_region v w -> plain_state s -> plain w (rc_setLayoutState c (v_image v) (v_type v) (v_range v) s).
Proof. intros Hv R Ps. unfold plain. destruct (set_state c v w s Hv Hw) as (A & _ & _). rewrite A by exact R. exact Ps. Qed.
Lemma barrier_plain sep c v initial s : view_ok v -> (same_region v w \/ separate_views v w) -> plain w c -> plain_state s ->
  let x := memoryBarrier_view sep c v initial s in plain w (fst x) /\ rc_implicit (fst x) = rc_implicit c.
Proof.
  intros Hv [R|R] P Ps; [|destruct (barrier_separate w Hw sep c v initial s Hv R P) as (A & _ & B); split; assumption].
  cbv zeta. unfold memoryBarrier_view. destruct (barrier_cases sep c (v_image v) (v_type v) (v_range v) initial s false) as [[_ ->]|[_ ->]]; cbn [fst]; [|split; [exact P|reflexivity]].
  split; [apply set_same_plain; assumption|reflexivity].
Qed.
Lemma image_plain p a c : let v := attach_view a (rp_index p) in view_ok v -> (same_region v w \/ separate_views v w) -> rc_implicit c = [] -> plain w c ->
  let x := record_image e g p a c in plain w (fst x) /\ rc_implicit (fst x) = [].
Proof.
  intros v Hv S I0 P x. unfold x, record_image. rewrite runImplicit_none by exact I0. cbn [seq2]. fold v.
  set (X := if andb _ _ then _ else _). enough (G : plain w (fst X) /\ rc_implicit (fst X) = []) by (destruct X; exact G). unfold X. clear X x.
  destruct (andb _ _); [|cbn [fst]; split; [exact P|exact I0]].
  assert (C : exists c1 cur, (if isInput a then getCurrentLayoutState g c (v_image v) (v_type v) (v_range v) else (c, makeLayoutState L_UNDEFINED)) = (c1, cur) /\ plain w c1 /\ rc_implicit c1 = []).
  { destruct (isInput a); [|exists c, (makeLayoutState L_UNDEFINED); repeat split; auto].
    destruct (getCurrentLayoutState g c (v_image v) (v_type v) (v_range v)) as [c1 s] eqn:E. destruct (plain_current g w Hw Pi Pf c v c1 s Hv P E) as (A & B & C). exists c1, s.
    split; [reflexivity|]. split; [|congruence]. destruct S as [S|S]; [apply (C S)|apply (B S)]. }
  destruct C as (c1 & cur & E & P1 & I1). rewrite E. clear E.
  assert (T : plain_state transfer_dst_state) by (right; reflexivity).
  assert (M : forall l, plain_state (makeLayoutState l)) by (intro l; right; reflexivity).
  destruct (isClearableImage a).
  - destruct (barrier_plain (e_separate e) c1 v (ls_layout cur) transfer_dst_state Hv S P1 T) as (P2 & I2).
    destruct (memoryBarrier_view (e_separate e) c1 v (ls_layout cur) transfer_dst_state) as [c2 l2]. cbn [seq2 emit fst] in *.
    destruct (barrier_plain (e_separate e) c2 v L_TRANSFER_DST (makeLayoutState (a_getImageLayout a (e_separate e))) Hv S P2 (M _)) as (P3 & I3).
    destruct (memoryBarrier_view (e_separate e) c2 v L_TRANSFER_DST _) as [c3 l3]. cbn [seq2 fst] in *. split; [exact P3|congruence].
  - destruct (barrier_plain (e_separate e) c1 v (ls_layout cur) (makeLayoutState (a_getImageLayout a (e_separate e))) Hv S P1 (M _)) as (P2 & I2). split; [exact P2|congruence].
Qed.
Lemma images_plain p l : forall c, (forall a, In a l -> view_ok (attach_view a (rp_index p)) /\ (same_region (attach_view a (rp_index p)) w \/ separate_views (attach_view a (rp_index p)) w)) ->
  rc_implicit c = [] -> plain w c -> let x := run_all (record_image e g p) l c in plain w (fst x) /\ rc_implicit (fst x) = [].
Proof.
  induction l as [|a l IH]; intros c H I0 P; cbv zeta; [cbn; split; [exact P|exact I0]|]. rewrite run_all_cons.
  destruct (H a (or_introl eq_refl)) as [Hv S]. destruct (image_plain p a c Hv S I0 P) as (P1 & I1).
  destruct (record_image e g p a c) as [c1 l1]. cbn [seq2 fst] in *. destruct (IH c1 (fun b Hb => H b (or_intror Hb)) I1 P1) as (P2 & I2).
  destruct (run_all (record_image e g p) l c1) as [c2 l2]. split; assumption.
Qed.
(* The rest of a pass does not change the state of the view. *)
Definition same_view (c c' : rctx) : Prop := rc_implicit c' = rc_implicit c /\ view_state (rc_images c') w = view_state (rc_images c) w.
Lemma same_trans c1 c2 c3 : same_view c1 c2 -> same_view c2 c3 -> same_view c1 c3.
Proof. unfold same_view. intros [A B] [C D]. split; congruence. Qed.
Lemma buffer_images p b c : rc_images (fst (record_buffer p b c)) = rc_images c /\ rc_implicit (fst (record_buffer p b c)) = rc_implicit c.
Proof.
  unfold record_buffer. destruct (andb _ _); [|split; reflexivity]. unfold bufferBarrier. destruct (isClearableBuffer b).
  - cbn [seq2]. destruct (orb _ _); cbn [seq2 emit]; destruct (orb _ _); split; reflexivity.
  - destruct (orb _ _); split; reflexivity.
Qed.
Lemma buffers_same p l : forall c, same_view c (fst (run_all (record_buffer p) l c)).
Proof.
  induction l as [|b l IH]; intro c; [split; reflexivity|]. rewrite run_all_cons. destruct (buffer_images p b c) as [A B].
  destruct (record_buffer p b c) as [c1 l1]. cbn [seq2 fst] in *. specialize (IH c1). destruct (run_all (record_buffer p) l c1) as [c2 l2]. cbn [fst] in *.
  apply (same_trans c c1); [|exact IH]. split; [exact B|]. unfold view_state. rewrite A. reflexivity.
Qed.
Lemma funs_same i (l : list (rctx -> nat -> rctx * list cmd)) : (forall f, In f l -> leaves_view w f) -> forall c, same_view c (fst (run_all (fun f c => f c i) l c)).
Proof.
  induction l as [|f l IH]; intros H c; [split; reflexivity|]. rewrite run_all_cons. destruct (H f (or_introl eq_refl) c i) as [A B].
  destruct (f c i) as [c1 l1]. cbn [fst] in A, B. cbn [seq2]. specialize (IH (fun f Hf => H f (or_intror Hf)) c1). destruct (run_all _ l c1) as [c2 l2]. cbn [fst] in *.
  apply (same_trans c c1); [|exact IH]. split; assumption.
Qed.
Lemma leaves_same v f : same_region v w -> view_ok v -> leaves_view v f -> leaves_view w f.
Proof. intros R Hv H c i. destruct (H c i) as [A B]. split; [exact A|]. unfold view_state in *. rewrite !(region_get _ v w) in B by (try apply Hv; try apply Hw; exact R). exact B. Qed.
(* A pass: the images, then commands that do not matter. *)
Lemma into_shape p c : plain_pass w p -> e_enabled e (rp_id p) = true ->
  exists cb mid tail, let x := run_all (record_image e g p) (rp_images p) c in
    snd (recordInto e g p c) = (CBeginBlock (rp_id p) :: CTimerBegin (rp_id p) :: snd x ++ mid) ++ snd (rp_record p cb (rp_index p)) ++ tail /\
    same_view (fst x) (fst (recordInto e g p c)).
Proof.
  intros (_ & _ & Hf & Hi) En. unfold recordInto. rewrite En. cbn [seq2].
  destruct (run_all (record_image e g p) (rp_images p) c) as [c1 l1]. cbn [seq2].
  pose proof (buffers_same p (rp_buffers p) c1) as Ab. destruct (run_all (record_buffer p) (rp_buffers p) c1) as [c2 l2]. cbn [seq2 fst] in *.
  pose proof (funs_same (rp_index p) (rp_pre p) (fun f H => Hf f (or_introl H)) c2) as Ap. destruct (run_all _ (rp_pre p) c2) as [c3 l3]. cbn [seq2 fst] in *.
  assert (Ar : same_view c3 (fst (rp_record p c3 (rp_index p)))) by (apply (Hf (rp_record p)); right; right; reflexivity).
  destruct (rp_record p c3 (rp_index p)) as [c4 l4] eqn:E4. cbn [seq2 fst] in *.
  pose proof (funs_same (rp_index p) (rp_post p) (fun f H => Hf f (or_intror (or_introl H))) c4) as Aq. destruct (run_all _ (rp_post p) c4) as [c5 l5]. cbn [seq2 emit snd fst] in *.
  exists c3, (l2 ++ l3), (l5 ++ [CTimerEnd (rp_id p); CEndBlock]). cbn [fst snd]. rewrite E4. cbn [snd]. split.
  - cbn [app]. rewrite <- !app_assoc. reflexivity.
  - unfold register_all. rewrite Hi. cbn [fold_left]. apply (same_trans c1 c2); [exact Ab|]. apply (same_trans c2 c3); [exact Ap|]. apply (same_trans c3 c4); [exact Ar|]. exact Aq.
Qed.
Lemma into_off p c : plain_pass w p -> e_enabled e (rp_id p) = false -> recordInto e g p c = (c, []).
Proof. intros (_ & _ & _ & Hi) En. unfold recordInto. rewrite En. unfold register_all. rewrite Hi. reflexivity. Qed.
Lemma attach_ok p : plain_pass w p -> forall a, In a (rp_images p) -> view_ok (attach_view a (rp_index p)) /\ (same_region (attach_view a (rp_index p)) w \/ separate_views (attach_view a (rp_index p)) w).
Proof. intros (H & _) a Ha. apply H. unfold pass_views. apply in_map_iff. exists a. split; [reflexivity|exact Ha]. Qed.
Lemma into_plain p c : plain_pass w p -> rc_implicit c = [] -> plain w c -> plain w (fst (recordInto e g p c)) /\ rc_implicit (fst (recordInto e g p c)) = [].
Proof.
  intros Hp I0 P. destruct (e_enabled e (rp_id p)) eqn:En; [|rewrite (into_off p c Hp En); split; assumption].
  destruct (into_shape p c Hp En) as (cb & mid & tail & _ & A & B). destruct (images_plain p (rp_images p) c (attach_ok p Hp) I0 P) as [C D].
  unfold plain in *. rewrite B, A. split; assumption.
Qed.
(* A pass whose attachments have nothing in common with the view. *)
Definition apart (p : rpass) : Prop := e_enabled e (rp_id p) = true -> forall v, In v (pass_views p) -> separate_views v w.
Lemma into_apart p c : plain_pass w p -> apart p -> rc_implicit c = [] -> plain w c -> keeps w c (fst (recordInto e g p c)).
Proof.
  intros Hp Ha I0 P. destruct (e_enabled e (rp_id p)) eqn:En; [|rewrite (into_off p c Hp En); apply keeps_refl].
  destruct (into_shape p c Hp En) as (cb & mid & tail & _ & A & B).
  destruct (images_separate g w Hw Pi Pf e p (rp_images p) c) as (_ & K & _); [|exact I0|exact P|intro K0; rewrite B; apply K, K0].
  intros a H. split; [apply (attach_ok p Hp a H)|]. apply (Ha En). unfold pass_views. apply in_map_iff. exists a. auto.
Qed.
Lemma prepare_view p rest c : rc_images (prepare e g p rest c) = rc_images c. Proof. unfold prepare. destruct rest; reflexivity. Qed.
Lemma prepare_implicit' p rest c : rc_implicit (prepare e g p rest c) = rc_implicit c. Proof. unfold prepare. destruct rest; reflexivity. Qed.
Lemma loop_app l1 : forall l2 c, exists c', True /\ (forall Q : rctx -> rctx -> Prop, (forall c, Q c c) -> (forall a b c, Q a b -> Q b c -> Q a c) ->
    (forall p rest c, In p l1 -> Q c (prepare e g p rest c)) -> (forall p c, In p l1 -> Q c (fst (recordInto e g p c))) -> Q c c') /\
  exists before, snd (fst (record_loop e g (l1 ++ l2) c)) = before ++ snd (fst (record_loop e g l2 c')).
Proof.
  induction l1 as [|p l1 IH]; intros l2 c; cbn [app record_loop].
  - exists c. split; [exact I|]. split; [intros Q R _ _ _; apply R|]. exists []. reflexivity.
  - set (c1 := prepare e g p (l1 ++ l2) c). pose proof (IH l2 (fst (recordInto e g p c1))) as (c' & _ & H & b & E). exists c'. split; [exact I|]. split.
    + intros Q R T Hp Hr. apply (T c c1); [apply Hp; left; reflexivity|]. apply (T c1 (fst (recordInto e g p c1))); [apply Hr; left; reflexivity|].
      apply H; auto. { intros q rest c0 Hq. apply Hp. right. exact Hq. } intros q c0 Hq. apply Hr. right. exact Hq.
    + destruct (recordInto e g p c1) as [c2 l3]. cbn [fst] in *. destruct (record_loop e g (l1 ++ l2) c2) as [[c3 l4] tr]. cbn [fst snd] in *. exists (l3 ++ b). rewrite E, app_assoc. reflexivity.
Qed.

Lemma loop_between l0 p mid q l1 a b c :
  (forall r, In r (l0 ++ p :: mid ++ q :: l1) -> plain_pass w r) -> (forall r, In r mid -> apart r) ->
  e_enabled e (rp_id p) = true -> e_enabled e (rp_id q) = true ->
  In a (rp_images p) -> same_region (attach_view a (rp_index p)) w -> has_transition a = true -> isClearableImage a = false ->
  In b (rp_images q) -> same_region (attach_view b (rp_index q)) w -> has_transition b = true -> isClearableImage b = false ->
  let la := a_getImageLayout a (e_separate e) in let lb := a_getImageLayout b (e_separate e) in
  la <> L_UNDEFINED -> lb <> L_UNDEFINED -> la <> lb -> rc_implicit c = [] -> plain w c ->
  exists before cp between cq tail,
    snd (fst (record_loop e g (l0 ++ p :: mid ++ q :: l1) c)) = before ++ snd (rp_record p cp (rp_index p)) ++ between ++ snd (rp_record q cq (rp_index q)) ++ tail /\
    In (CImageBarrier (i_id (v_image w)) (adaptRange (e_separate e) (i_format (v_image (attach_view b (rp_index q)))) (v_range (attach_view b (rp_index q)))) (getStageMask la) (getStageMask lb)
              (getAccessMask la) (getAccessMask lb) la lb) between.
Proof.
  intros Hall Hmid Ep Eq Ha Ra Ta Ca Hb Rb Tb Cb la lb La Lb Lab I0 P0.
  destruct (loop_app l0 (p :: mid ++ q :: l1) c) as (c1 & _ & H1 & b1 & E1). rewrite E1. clear E1.
  assert (G1 : rc_implicit c1 = [] /\ plain w c1).
  { apply (H1 (fun x y => rc_implicit x = [] /\ plain w x -> rc_implicit y = [] /\ plain w y)); [tauto|tauto| | |split; assumption].
    - intros r rest x _ [X Y]. rewrite prepare_implicit'. unfold plain. rewrite prepare_view. split; assumption.
    - intros r x Hr [X Y]. destruct (into_plain r x (Hall r (in_or_app _ _ _ (or_introl Hr))) X Y). split; assumption. }
  clear H1. destruct G1 as [I1 P1]. cbn [record_loop]. set (c1' := prepare e g p (mid ++ q :: l1) c1).
  assert (I1' : rc_implicit c1' = []) by (unfold c1'; rewrite prepare_implicit'; exact I1). assert (P1' : plain w c1') by (unfold c1', plain; rewrite prepare_view; exact P1). clearbody c1'.
  assert (Hp : plain_pass w p) by (apply Hall, in_or_app; right; left; reflexivity).
  assert (Hq : plain_pass w q) by (apply Hall, in_or_app; right; right; apply in_or_app; right; left; reflexivity).
  destruct (into_shape p c1' Hp Ep) as (cp & m1 & t1 & E2 & S2).
  destruct (images_same g w Hw Pi Pf e p (rp_images p) a c1' Ha (fun x Hx => proj1 (attach_ok p Hp x Hx)) (proj1 (proj2 Hp)) Ra I1' P1' Ta Ca La) as (V2 & I2 & _). fold la in V2.
  assert (I3 : rc_implicit (fst (recordInto e g p c1')) = []) by (rewrite (proj1 S2); exact I2).
  assert (V3 : view_state (rc_images (fst (recordInto e g p c1'))) w = makeLayoutState la) by (rewrite (proj2 S2); exact V2). clear S2 V2 I2.
  destruct (recordInto e g p c1') as [c2 l2]. cbn [fst snd] in *.
  destruct (loop_app mid (q :: l1) c2) as (c3 & _ & H3 & b3 & E3).
  assert (G3 : rc_implicit c3 = [] /\ view_state (rc_images c3) w = makeLayoutState la).
  { apply (H3 (fun x y => rc_implicit x = [] /\ view_state (rc_images x) w = makeLayoutState la -> rc_implicit y = [] /\ view_state (rc_images y) w = makeLayoutState la)); [tauto|tauto| | |split; assumption].
    - intros r rest x _ [X Y]. rewrite prepare_implicit', prepare_view. split; assumption.
    - intros r x Hr [X Y]. assert (Hr' : plain_pass w r) by (apply Hall, in_or_app; right; right; apply in_or_app; left; exact Hr).
      assert (Px : plain w x) by (unfold plain; rewrite Y; right; reflexivity). split; [apply (into_plain r x Hr' X Px)|].
      rewrite (into_apart r x Hr' (Hmid r Hr) X Px); [exact Y|]. rewrite <- view_state_known, Y. exact La. }
  clear H3. destruct G3 as [I4 V4]. cbn [record_loop] in E3. set (c3' := prepare e g q l1 c3) in E3.
  assert (I5 : rc_implicit c3' = []) by (unfold c3'; rewrite prepare_implicit'; exact I4).
  assert (V5 : view_state (rc_images c3') w = makeLayoutState la) by (unfold c3'; rewrite prepare_view; exact V4). clearbody c3'.
  assert (P5 : plain w c3') by (unfold plain; rewrite V5; right; reflexivity).
  assert (K5 : known_layout c3' w = la) by (rewrite <- view_state_known, V5; reflexivity).
  destruct (into_shape q c3' Hq Eq) as (cq & m4 & t4 & E4 & _).
  destruct (images_same g w Hw Pi Pf e q (rp_images q) b c3' Hb (fun x Hx => proj1 (attach_ok q Hq x Hx)) (proj1 (proj2 Hq)) Rb I5 P5 Tb Cb Lb) as (_ & _ & B4). rewrite K5 in B4. specialize (B4 La Lab). fold lb in B4.
  destruct (recordInto e g q c3') as [c4 l4]. cbn [fst snd] in *. destruct (record_loop e g (mid ++ q :: l1) c2) as [[c6 l6] tr6]. cbn [fst snd] in *.
  destruct (record_loop e g l1 c4) as [[c5 l5] tr5]. cbn [fst snd] in *.
  set (xp := snd (run_all (record_image e g p) (rp_images p) c1')) in *. set (xq := snd (run_all (record_image e g q) (rp_images q) c3')) in *.
  exists (b1 ++ (CBeginBlock (rp_id p) :: CTimerBegin (rp_id p) :: xp ++ m1)), cp, (t1 ++ b3 ++ (CBeginBlock (rp_id q) :: CTimerBegin (rp_id q) :: xq ++ m4)), cq, (t4 ++ l5).
  split.
  - rewrite E2, E3, E4. rewrite <- !app_assoc. cbn [app]. rewrite <- !app_assoc. reflexivity.
  - apply in_or_app. right. apply in_or_app. right. right. right. apply in_or_app. left. exact B4.
Qed.
End Passes.
