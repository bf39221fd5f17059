(* Where the body of a pass is in the commands. *)
From Verif Require Import Spec_Device Proof_Layout Proof_Record Proof_Run2 Proof_Run3 Proof_Device Proof_Device2 Proof_Device3 Proof_Device4.
From Coq Require Import PeanoNat.
Local Open Scope N_scope.

Lemma buffers_after p l : forall c d, after_all d (snd (run_all (record_buffer p) l c)) = d.
Proof.
  induction l as [|b l IH]; intros c0 d0; [reflexivity|]. rewrite run_all_cons.
  assert (E : forall c d, after_all d (snd (record_buffer p b c)) = d).
  { intros c2 d2. unfold record_buffer. destruct (andb _ _); [|reflexivity]. unfold bufferBarrier. destruct (isClearableBuffer b).
    - cbn [seq2]. destruct (orb _ _); cbn [seq2 emit]; destruct (orb _ _); reflexivity.
    - destruct (orb _ _); reflexivity. }
  specialize (E c0 d0). destruct (record_buffer p b c0) as [c3 l3]. cbn [seq2 snd] in *. specialize (IH c3 d0). destruct (run_all (record_buffer p) l c3) as [c4 l4]. cbn [snd] in *.
  rewrite after_app, E. exact IH.
Qed.
Lemma funs_after i (l : list (rctx -> nat -> rctx * list cmd)) : (forall f, In f l -> neutral_fun f) -> forall c d, after_all d (snd (run_all (fun f c => f c i) l c)) = d.
Proof.
  induction l as [|f l IH]; intros H c d; [reflexivity|]. rewrite run_all_cons.
  destruct (H f (or_introl eq_refl) c i) as [A B]. destruct (f c i) as [c1 l1]. cbn [fst snd] in *. cbn [seq2].
  specialize (IH (fun f Hf => H f (or_intror Hf)) c1 d). destruct (run_all _ l c1) as [c2 l2]. cbn [snd] in *.
  rewrite after_app, (proj2 (neutral_all l1 B d)). exact IH.
Qed.
Section Split.
Context (e : env) (g : rgraph) (F : view -> Prop) (HF : regions F).
Lemma into_split acts p c d : sound_pass e g F acts p -> e_enabled e (rp_id p) = true -> pend acts c -> right g F c d ->
  exists before cb tail, snd (recordInto e g p c) = before ++ snd (rp_record p cb (rp_index p)) ++ tail /\ ready e p (after_all d before).
Proof.
  intros S En I0 R. pose proof S as (_ & _ & Hn & _ & _). unfold recordInto. rewrite En.
  destruct (images_ready g F HF e acts p c d S I0 R) as [_ Rd]. cbn [seq2].
  destruct (run_all (record_image e g p) (rp_images p) c) as [c1 l1]. cbn [fst snd] in Rd. cbn [seq2].
  pose proof (buffers_after p (rp_buffers p) c1 (after_all d l1)) as Ab. destruct (run_all (record_buffer p) (rp_buffers p) c1) as [c2 l2]. cbn [seq2 snd] in *.
  pose proof (funs_after (rp_index p) (rp_pre p) (fun f Hf => Hn f (or_introl Hf)) c2 (after_all d l1)) as Ap.
  destruct (run_all _ (rp_pre p) c2) as [c3 l3]. cbn [seq2 snd] in *.
  destruct (rp_record p c3 (rp_index p)) as [c4 l4] eqn:E4. cbn [seq2].
  destruct (run_all _ (rp_post p) c4) as [c5 l5]. cbn [seq2 emit snd].
  exists (CBeginBlock (rp_id p) :: CTimerBegin (rp_id p) :: l1 ++ l2 ++ l3), c3, (l5 ++ [CTimerEnd (rp_id p); CEndBlock]).
  rewrite E4. cbn [snd]. split.
  - cbn [app]. rewrite <- !app_assoc. reflexivity.
  - cbn [after_all fold_left after]. change (ready e p (after_all d (l1 ++ l2 ++ l3))). rewrite !after_app, Ab, Ap. exact Rd.
Qed.
Lemma loop_split acts p : e_enabled e (rp_id p) = true -> forall passes1 passes2 c d, (forall q, In q (passes1 ++ p :: passes2) -> sound_pass e g F acts q /\ incl (rp_implicit q) acts) -> pend acts c -> right g F c d ->
  exists before cb tail, snd (fst (record_loop e g (passes1 ++ p :: passes2) c)) = before ++ snd (rp_record p cb (rp_index p)) ++ tail /\ ready e p (after_all d before).
Proof.
  intros En. induction passes1 as [|q passes1 IH]; intros passes2 c d H I0 R; cbn [app record_loop].
  - assert (P1 : pend acts (prepare e g p passes2 c)) by (unfold pend; rewrite prepare_implicit; exact I0).
    destruct (into_split acts p (prepare e g p passes2 c) d (proj1 (H p (or_introl eq_refl))) En P1) as (b & cb & t & E & Rd); [apply prepare_right, R|].
    destruct (recordInto e g p (prepare e g p passes2 c)) as [c1 l1]. cbn [snd] in E. destruct (record_loop e g passes2 c1) as [[c2 l2] tr].
    exists b, cb, (t ++ l2). cbn [fst snd]. rewrite E, <- !app_assoc. auto.
  - set (rest := passes1 ++ p :: passes2) in *. destruct (H q (or_introl eq_refl)) as [Sq Iq].
    assert (P1 : pend acts (prepare e g q rest c)) by (unfold pend; rewrite prepare_implicit; exact I0).
    pose proof (good_recordInto g F HF e acts q (prepare e g q rest c) d Sq Iq P1 (prepare_right g F e q rest c d R)) as G.
    destruct (recordInto e g q (prepare e g q rest c)) as [c1 l1]. destruct G as (_ & B & C). cbn [fst snd] in *.
    destruct (IH passes2 c1 (after_all d l1) (fun x Hx => H x (or_intror Hx)) C B) as (b & cb & t & E & Rd).
    fold rest in E. destruct (record_loop e g rest c1) as [[c2 l2] tr]. cbn [fst snd] in *.
    exists (l1 ++ b), cb, t. rewrite E, <- !app_assoc. split; [reflexivity|]. rewrite after_app. exact Rd.
Qed.
End Split.
