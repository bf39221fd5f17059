(* Proofs about a producer and a consumer of an image: one decomposition of the commands of a recording. *)
From Verif Require Import Spec_Deliver Proof_Layout Proof_Record Proof_Run2 Proof_Run3 Proof_Device Proof_Device2 Proof_Device3 Proof_Device4 Proof_Device5 Proof_Sync Proof_Sync2 Proof_Flow Proof_Flow2.
Local Open Scope N_scope.

Section Reached.
Context (e : env) (g : rgraph).
(* The context and the commands after the passes [l1], which are followed by [l2]. *)
Fixpoint reached (l1 l2 : list rpass) (c : rctx) : rctx :=
  match l1 with [] => c | p :: l1 => reached l1 l2 (fst (recordInto e g p (prepare e g p (l1 ++ l2) c))) end.
Fixpoint emitted (l1 l2 : list rpass) (c : rctx) : list cmd :=
  match l1 with [] => [] | p :: l1 => let x := recordInto e g p (prepare e g p (l1 ++ l2) c) in snd x ++ emitted l1 l2 (fst x) end.
Lemma loop_reached l1 : forall l2 c, snd (fst (record_loop e g (l1 ++ l2) c)) = emitted l1 l2 c ++ snd (fst (record_loop e g l2 (reached l1 l2 c))).
Proof.
  induction l1 as [|p l1 IH]; intros l2 c; [reflexivity|]. cbn [app record_loop reached emitted]. cbv zeta.
  destruct (recordInto e g p (prepare e g p (l1 ++ l2) c)) as [c1 k]. cbn [fst snd]. specialize (IH l2 c1).
  destruct (record_loop e g (l1 ++ l2) c1) as [[c2 k2] tr]. cbn [fst snd] in *. rewrite IH, app_assoc. reflexivity.
Qed.
(* The commands of an enabled pass after the others. *)
Lemma loop_body l1 p l2 c : e_enabled e (rp_id p) = true ->
  let c0 := prepare e g p l2 (reached l1 (p :: l2) c) in let o := opening e g p c0 in let b := rp_record p (fst o) (rp_index p) in let z := closing p (fst b) in
  snd (fst (record_loop e g (l1 ++ p :: l2) c)) = emitted l1 (p :: l2) c ++ snd o ++ snd b ++ snd z ++ snd (fst (record_loop e g l2 (register_all p (fst z)))).
Proof.
  intros En c0 o b z. rewrite loop_reached. f_equal. cbn [record_loop]. fold c0. rewrite (into_opening e g p c0 En). fold o. fold b. fold z.
  destruct (record_loop e g l2 (register_all p (fst z))) as [[c2 k2] tr]. cbn [fst snd]. rewrite <- !app_assoc. reflexivity.
Qed.
Lemma loop_bodies l0 p mid q l1 c : e_enabled e (rp_id p) = true -> e_enabled e (rp_id q) = true ->
  let c0 := prepare e g p (mid ++ q :: l1) (reached l0 (p :: mid ++ q :: l1) c) in
  let o := opening e g p c0 in let b := rp_record p (fst o) (rp_index p) in let z := closing p (fst b) in
  let c1 := register_all p (fst z) in let c2 := prepare e g q l1 (reached mid (q :: l1) c1) in let o2 := opening e g q c2 in
  exists tail, snd (fst (record_loop e g (l0 ++ p :: mid ++ q :: l1) c)) =
    (emitted l0 (p :: mid ++ q :: l1) c ++ snd o) ++ snd b ++ (snd z ++ emitted mid (q :: l1) c1 ++ snd o2) ++ snd (rp_record q (fst o2) (rp_index q)) ++ tail.
Proof.
  intros Ep Eq c0 o b z c1 c2 o2. eexists. rewrite (loop_body l0 p (mid ++ q :: l1) c Ep). cbv zeta. fold c0. fold o. fold b. fold z. fold c1.
  rewrite (loop_body mid q l1 c1 Eq). cbv zeta. fold c2. fold o2. rewrite <- !app_assoc. reflexivity.
Qed.
(* A property of contexts that the passes keep. *)
Lemma reached_inv (I : rctx -> Prop) l1 : forall l2 c, (forall p rest c, In p l1 -> I c -> I (prepare e g p rest c)) -> (forall p c, In p l1 -> I c -> I (fst (recordInto e g p c))) -> I c -> I (reached l1 l2 c).
Proof.
  induction l1 as [|p l1 IH]; intros l2 c H1 H2 H; [exact H|]. cbn [reached]. apply IH.
  - intros q rest x Hq. apply H1. right. exact Hq.
  - intros q x Hq. apply H2. right. exact Hq.
  - apply H2; [left; reflexivity|]. apply H1; [left; reflexivity|exact H].
Qed.
Lemma emitted_inv (I : rctx -> Prop) (P : cmd -> Prop) l1 : forall l2 c, (forall p rest c, In p l1 -> I c -> I (prepare e g p rest c)) ->
  (forall p c, In p l1 -> I c -> I (fst (recordInto e g p c)) /\ Forall P (snd (recordInto e g p c))) -> I c -> Forall P (emitted l1 l2 c).
Proof.
  induction l1 as [|p l1 IH]; intros l2 c H1 H2 H; [constructor|]. cbn [emitted]. cbv zeta.
  assert (H3 : I (prepare e g p (l1 ++ l2) c)) by (apply H1; [left; reflexivity|exact H]).
  destruct (H2 p (prepare e g p (l1 ++ l2) c) (or_introl eq_refl) H3) as [A B]. apply Forall_app. split; [exact B|]. apply IH; [..|exact A].
  - intros q rest x Hq. apply H1. right. exact Hq.
  - intros q x Hq. apply H2. right. exact Hq.
Qed.

(* The device when a pass begins. *)
Section Layouts.
Context (F : view -> Prop) (HF : regions F) (acts : list (view * action)).
Lemma reached_right l1 : forall l2 c d, (forall q, In q l1 -> sound_pass e g F acts q /\ incl (rp_implicit q) acts) -> pend acts c -> right g F c d ->
  pend acts (reached l1 l2 c) /\ right g F (reached l1 l2 c) (after_all d (emitted l1 l2 c)).
Proof.
  induction l1 as [|p l1 IH]; intros l2 c d H I0 R; [split; assumption|]. cbn [reached emitted]. cbv zeta.
  destruct (H p (or_introl eq_refl)) as [Sp Ip].
  assert (P1 : pend acts (prepare e g p (l1 ++ l2) c)) by (unfold pend; rewrite prepare_implicit; exact I0).
  pose proof (good_recordInto g F HF e acts p (prepare e g p (l1 ++ l2) c) d Sp Ip P1 (prepare_right g F e p (l1 ++ l2) c d R)) as G.
  destruct (recordInto e g p (prepare e g p (l1 ++ l2) c)) as [c1 k]. destruct G as (_ & B & C). cbn [fst snd] in *.
  rewrite after_app. apply IH; [intros q Hq; apply H; right; exact Hq|exact C|exact B].
Qed.
Lemma opening_ready p c d : sound_pass e g F acts p -> pend acts c -> right g F c d -> ready e p (after_all d (snd (opening e g p c))).
Proof.
  intros S I0 R. pose proof S as (_ & _ & Hn & _ & _). unfold opening.
  destruct (images_ready g F HF e acts p c d S I0 R) as [_ Rd]. cbn [seq2].
  destruct (run_all (record_image e g p) (rp_images p) c) as [c1 l1]. cbn [fst snd] in Rd. cbn [seq2].
  pose proof (buffers_after p (rp_buffers p) c1 (after_all d l1)) as Ab. destruct (run_all (record_buffer p) (rp_buffers p) c1) as [c2 l2]. cbn [seq2 snd] in *.
  pose proof (funs_after (rp_index p) (rp_pre p) (fun f Hf => Hn f (or_introl Hf)) c2 (after_all d l1)) as Ap.
  destruct (run_all _ (rp_pre p) c2) as [c3 l3]. cbn [seq2 snd] in *. cbn [app].
  change (ready e p (after_all d ((l1 ++ l2) ++ l3))). rewrite !after_app, Ab, Ap. exact Rd.
Qed.
End Layouts.

Section View.
Context (w : view) (Hw : view_ok w).
Context (Pi : plain_state (view_state (g_inputs g) w)) (Pf : plain_state (view_state (rc_images (g_final g)) w)).
Definition calm_plain (c : rctx) : Prop := rc_implicit c = [] /\ plain w c.
Lemma calm_prepare p rest c : calm_plain c -> calm_plain (prepare e g p rest c).
Proof. intros [A B]. unfold calm_plain, plain. rewrite prepare_implicit', prepare_view. split; assumption. Qed.
Lemma calm_into p c : plain_pass w p -> calm_plain c -> calm_plain (fst (recordInto e g p c)).
Proof. intros Hp [A B]. destruct (into_plain e g w Hw Pi Pf p c Hp A B). split; assumption. Qed.
(* The opening of a pass that uses the view. *)
Lemma opening_images p c : opening e g p c =
  let x := run_all (record_image e g p) (rp_images p) c in
  let y := run_all (record_buffer p) (rp_buffers p) (fst x) in
  let z := run_all (fun f c => f c (rp_index p)) (rp_pre p) (fst y) in
  (fst z, [CBeginBlock (rp_id p); CTimerBegin (rp_id p)] ++ snd x ++ snd y ++ snd z).
Proof.
  unfold opening. cbn [seq2]. destruct (run_all (record_image e g p) (rp_images p) c) as [c1 l1]. cbn [seq2 fst snd].
  destruct (run_all (record_buffer p) (rp_buffers p) c1) as [c2 l2]. cbn [seq2 fst snd]. destruct (run_all _ (rp_pre p) c2) as [c3 l3]. cbn [seq2 fst snd]. cbn [app]. rewrite <- !app_assoc. reflexivity.
Qed.
Lemma opening_state p a c : plain_pass w p -> calm_plain c -> In a (rp_images p) -> same_region (attach_view a (rp_index p)) w -> has_transition a = true -> isClearableImage a = false ->
  a_getImageLayout a (e_separate e) <> L_UNDEFINED ->
  let la := a_getImageLayout a (e_separate e) in
  rc_implicit (fst (opening e g p c)) = [] /\ view_state (rc_images (fst (opening e g p c))) w = makeLayoutState la /\
  (known_layout c w <> L_UNDEFINED -> known_layout c w <> la ->
   In (CImageBarrier (i_id (v_image w)) (adaptRange (e_separate e) (i_format (v_image (attach_view a (rp_index p)))) (v_range (attach_view a (rp_index p)))) (getStageMask (known_layout c w)) (getStageMask la)
         (getAccessMask (known_layout c w)) (getAccessMask la) (known_layout c w) la) (snd (opening e g p c))).
Proof.
  intros Hp [I0 P0] Ha Ra Ta Ca La la.
  destruct (images_same g w Hw Pi Pf e p (rp_images p) a c Ha (fun x Hx => proj1 (attach_ok w p Hp x Hx)) (proj1 (proj2 Hp)) Ra I0 P0 Ta Ca La) as (V & I1 & B). fold la in V, B.
  rewrite opening_images. cbv zeta. cbn [fst snd]. set (x := run_all (record_image e g p) (rp_images p) c) in *.
  destruct (buffers_same w p (rp_buffers p) (fst x)) as [A1 A2]. set (y := run_all (record_buffer p) (rp_buffers p) (fst x)) in *.
  destruct (funs_same w (rp_index p) (rp_pre p) (fun f H => proj1 (proj2 (proj2 Hp)) f (or_introl H)) (fst y)) as [B1 B2].
  split; [rewrite B1, A1; exact I1|]. split; [rewrite B2, A2; exact V|]. intros K L. apply in_or_app. right. apply in_or_app. left. apply B; assumption.
Qed.
Lemma body_state p c : plain_pass w p -> let x := rp_record p c (rp_index p) in let z := closing p (fst x) in
  rc_implicit (register_all p (fst z)) = rc_implicit c /\ view_state (rc_images (register_all p (fst z))) w = view_state (rc_images c) w.
Proof.
  intros (_ & _ & Hf & Hi) x z. unfold register_all. rewrite Hi. cbn [fold_left].
  destruct (Hf (rp_record p) (or_intror (or_intror eq_refl)) c (rp_index p)) as [A B]. fold x in A, B.
  destruct (funs_same w (rp_index p) (rp_post p) (fun f H => Hf f (or_intror (or_introl H))) (fst x)) as [C D].
  assert (E : fst z = fst (run_all (fun (f : rctx -> nat -> rctx * list cmd) c => f c (rp_index p)) (rp_post p) (fst x))) by (unfold z, closing; destruct (run_all _ (rp_post p) (fst x)); reflexivity).
  rewrite E, C, D, A, B. split; reflexivity.
Qed.

Lemma harmless_careful i f : leaves_view w f -> harmless w f -> careful_at true g w i f.
Proof.
  intros L H c A. split; [apply H|]. destruct (L c i) as [B C]. split; [|rewrite B; apply incl_refl].
  cbn [aware] in *. unfold known_layout in *. unfold view_state in C. unfold rc_getLayoutState in *. rewrite C. exact A.
Qed.
Lemma apart_not_same x : view_ok x -> same_region x w -> separate_views x w -> False.
Proof.
  intros [Hx _] (A & B & C & D & E) [F|F]; [contradiction|]. destruct Hx as (V1 & V2 & _). apply (F (r_layer (v_range x)) (r_mip (v_range x))); unfold in_range in *; lia.
Qed.
Lemma calm_clean i c : rc_implicit c = [] -> clean true e g w i c.
Proof. intros E q x a Hx. rewrite E in Hx. destruct Hx. Qed.
Lemma apart_careful p : plain_pass w p -> (forall x, In x (pass_views p) -> separate_views x w) -> careful_attaches true w p.
Proof.
  intros Hp S a Ha. cbv zeta. destruct (attach_ok w p Hp a Ha) as [V D]. split; [split; assumption|]. intros _ R. exfalso.
  apply (apart_not_same _ V R). apply S. apply (in_map (fun a => attach_view a (rp_index p))), Ha.
Qed.
Lemma into_harmless p c : plain_pass w p -> (e_enabled e (rp_id p) = true -> aside w p) ->
  rc_implicit c = [] -> known_layout c w <> L_UNDEFINED ->
  Forall (preserves w) (snd (recordInto e g p c)).
Proof.
  intros Hp H I0 K. destruct (e_enabled e (rp_id p)) eqn:En; [|unfold recordInto; rewrite En; constructor]. destruct (H eq_refl) as [S Hh].
  pose proof Hp as (_ & _ & Hf & _).
  rewrite (into_opening e g p c En). cbn [snd].
  destruct (flows_opening true e g w Hw p c) as (O1 & O2 & _); [|apply calm_clean, I0|exact K|].
  { split; [apply apart_careful; assumption|]. intros f Hin. apply harmless_careful; [apply Hf|apply Hh]; left; exact Hin. }
  set (o := opening e g p c) in *. rewrite !Forall_app. split; [exact O1|]. split; [apply (Hh (rp_record p)); right; right; reflexivity|].
  apply (flows_closing true g w p).
  - intros f Hin. apply harmless_careful; [apply Hf|apply Hh]; right; left; exact Hin.
  - apply (harmless_careful (rp_index p) (rp_record p)); [apply Hf; right; right; reflexivity|apply Hh; right; right; reflexivity|exact O2].
Qed.
End View.
End Reached.
