(* Proofs about a producer and a consumer of an image, continued: the contents reach the consumer, whatever the usages. *)
From Verif Require Import Spec_Deliver Proof_Layout Proof_Record Proof_Run2 Proof_Run3 Proof_Device Proof_Device2 Proof_Device3 Proof_Device4 Proof_Device5 Proof_Flow Proof_Flow2 Proof_Flow3 Proof_Deliver.
Local Open Scope N_scope.

Lemma touched_incl acts acts' i v w : incl acts acts' -> touched acts i v w -> touched acts' i v w.
Proof.
  intros H T. induction T as [v u a w H1 H2 H3|v u a s w H1 H2 H3 T IH]; [apply (touched_here _ _ v u a w); auto|apply (touched_before _ _ v u a s w); auto].
Qed.
Lemma sound_pass_incl e g F acts acts' p : incl acts' acts -> sound_pass e g F acts p -> sound_pass e g F acts' p.
Proof.
  intros H (A & B & C & D & E & G). split; [exact A|]. split; [exact B|]. split; [exact C|]. split; [exact D|]. split; [intros x Hx; apply E, H, Hx|].
  revert G. generalize (rp_images p). intros l G. induction G as [|a l Ga G IH]; constructor; [|exact IH].
  eapply Forall_impl; [|exact Ga]. intros b Hb w T. apply Hb. apply (touched_incl acts' acts); assumption.
Qed.
Lemma sound_passes_incl e g F l l' : (forall r, In r l' -> In r l) -> sound_passes e g F l -> sound_passes e g F l'.
Proof.
  intros Iff H p Hp. apply (sound_pass_incl e g F (flat_map rp_implicit l)); [|apply H, Iff, Hp].
  intros x Hx. apply in_flat_map in Hx. destruct Hx as (r & Hr & Hx). apply in_flat_map. exists r. auto.
Qed.

Section Frame.
Context (e : env) (g : rgraph) (Qe : quiet_env e).
Lemma reached_registered all l1 l2 c : incl l1 all -> (forall p, In p l1 -> quiet_pass p) -> registered all c -> registered all (reached e g l1 l2 c).
Proof.
  intros Hi Q R. apply reached_inv; [intros; apply registered_prepare; assumption| |exact R].
  intros p x Hp. apply (registered_into e g Qe); [apply Hi, Hp|apply Q, Hp].
Qed.
Context (v : view) (Hv : view_ok v).
Lemma flows_emitted own run all l1 l2 c : careful_actions own e g v run all -> incl l1 run -> incl l1 all -> (forall p, In p l1 -> quiet_pass p) ->
  (forall p, In p l1 -> e_enabled e (rp_id p) = true -> careful_pass own g v p) -> registered all c -> aware own g v c ->
  Forall (preserves v) (emitted e g l1 l2 c) /\ aware own g v (reached e g l1 l2 c) /\ registered all (reached e g l1 l2 c).
Proof.
  intros Ha Hr Hi Q Hc R A. set (J := fun x => aware own g v x /\ registered all x).
  assert (Jp : forall p rest x, In p l1 -> J x -> J (prepare e g p rest x)).
  { intros p rest x _ [X Y]. split; [apply (aware_ext own g v x); [apply prepare_known|exact X]|apply registered_prepare, Y]. }
  assert (Ji : forall p x, In p l1 -> J x -> J (fst (recordInto e g p x)) /\ Forall (preserves v) (snd (recordInto e g p x))).
  { intros p x Hp [X Y]. destruct (flows_into e g Qe v Hv own run all p x Ha (Hr p Hp) (Hi p Hp) (Q p Hp) (Hc p Hp) Y X) as (B1 & B2 & B3). split; [split|]; assumption. }
  assert (J0 : J c) by (split; assumption).
  split; [apply (emitted_inv e g J); assumption|].
  apply (reached_inv e g J); [assumption| |assumption]. intros p x Hp Jx. apply Ji; assumption.
Qed.

Lemma deliver_contents F d deps l0 p mid q l1 :
  let passes := l0 ++ p :: mid ++ q :: l1 in
  regions F -> sound_passes e g F passes -> (forall w, F w -> truthful g (start_context e deps passes) d w) ->
  (forall r, In r passes -> quiet_pass r) -> e_enabled e (rp_id p) = true -> e_enabled e (rp_id q) = true ->
  establishes e v p -> (forall f, In f (rp_post p) -> careful_at true g v (rp_index p) f) ->
  (forall r, In r mid -> e_enabled e (rp_id r) = true -> careful_pass true g v r) ->
  careful_before true g v q -> careful_actions true e g v (p :: mid ++ [q]) passes ->
  exists before cp between cq tail,
    snd (fst (record_graph e g deps passes)) = before ++ snd (rp_record p cp (rp_index p)) ++ between ++ snd (rp_record q cq (rp_index q)) ++ tail /\
    ready e p (after_all d before) /\ ready e q (after_all d (before ++ snd (rp_record p cp (rp_index p)) ++ between)) /\
    Forall (preserves v) between /\ known_layout cq v <> L_UNDEFINED.
Proof.
  intros passes HF Hs R0 Q Ep Eq Es Hpost Hmid Hq Ha.
  assert (Ha1 : careful_actions true e g v [p] passes) by (intros x y w a [<-|[]]; apply Ha; left; reflexivity).
  assert (Ha2 : careful_actions true e g v (mid ++ [q]) passes) by (intros x y w a Hx; apply Ha; right; exact Hx).
  rewrite record_loop_graph. cbv zeta. cbn [fst snd].
  destruct (loop_bodies e g l0 p mid q l1 (start_context e deps passes) Ep Eq) as (tail & E). cbv zeta in E. fold passes in E. rewrite E. clear E.
  pose proof (start_registered e deps passes passes) as G0.
  set (cs := start_context e deps passes) in *.
  set (acts := flat_map rp_implicit passes) in *.
  assert (P0 : pend acts cs) by (intros x w u Hx; unfold cs in Hx; rewrite start_implicit in Hx; destruct Hx).
  pose proof (sound_all g F e passes Hs) as Sall. fold acts in Sall.
  destruct (reached_right e g F HF acts l0 (p :: mid ++ q :: l1) cs d) as [P1 R1]; [intros r Hr; apply Sall, in_or_app; left; exact Hr|exact P0|exact R0|].
  assert (Sp : sound_pass e g F acts p /\ incl (rp_implicit p) acts) by (apply Sall, in_or_app; right; left; reflexivity).
  assert (Sq : sound_pass e g F acts q /\ incl (rp_implicit q) acts) by (apply Sall, in_or_app; right; right; apply in_or_app; right; left; reflexivity).
  assert (Hp : In p passes) by (apply in_or_app; right; left; reflexivity).
  assert (G1 : registered passes (reached e g l0 (p :: mid ++ q :: l1) cs)).
  { apply reached_registered; [intros x Hx; apply in_or_app; left; exact Hx|intros x Hx; apply Q, in_or_app; left; exact Hx|exact G0]. }
  set (c0 := prepare e g p (mid ++ q :: l1) (reached e g l0 (p :: mid ++ q :: l1) cs)) in *.
  set (k0 := emitted e g l0 (p :: mid ++ q :: l1) cs) in *.
  assert (G2 : registered passes c0) by (apply registered_prepare, G1).
  assert (P2 : pend acts c0) by (unfold pend, c0; rewrite prepare_implicit; exact P1).
  assert (R2 : right g F c0 (after_all d k0)) by (apply prepare_right, R1). clearbody c0 k0. clear G1 P1 R1.
  pose proof (opening_ready e g F HF acts p c0 (after_all d k0) (proj1 Sp) P2 R2) as Rp. rewrite <- after_app in Rp.
  pose proof (established e g Qe v Hv [p] passes p c0 Ha1 (or_introl eq_refl) Ep Es (Q p Hp) G2) as K.
  pose proof (registered_into e g Qe passes p c0 Hp (Q p Hp) G2) as G3.
  pose proof (good_recordInto g F HF e acts p c0 (after_all d k0) (proj1 Sp) (proj2 Sp) P2 R2) as G.
  rewrite (into_opening e g p c0 Ep) in G, G3. cbv zeta in G, G3. destruct G as (_ & B2 & B3). cbn [fst snd] in B2, B3, G3.
  set (o := opening e g p c0) in *. set (bd := rp_record p (fst o) (rp_index p)) in *.
  destruct (flows_closing true g v p (fst bd) Hpost K) as (Z & A2 & _).
  set (z := closing p (fst bd)) in *. set (c1 := register_all p (fst z)) in *.
  assert (A1 : aware true g v c1) by (apply (aware_ext true g v _ _ (register_known p _ v)); exact A2).
  destruct (flows_emitted true (mid ++ [q]) passes mid (q :: l1) c1 Ha2) as (Em & A3 & G4).
  { intros x Hx. apply in_or_app. left. exact Hx. }
  { intros x Hx. apply in_or_app. right. right. apply in_or_app. left. exact Hx. }
  { intros x Hx. apply Q, in_or_app. right. right. apply in_or_app. left. exact Hx. }
  { exact Hmid. } { exact G3. } { exact A1. }
  destruct (reached_right e g F HF acts mid (q :: l1) c1 (after_all (after_all d k0) (snd o ++ snd bd ++ snd z))) as [P3 R3];
    [intros r Hr; apply Sall, in_or_app; right; right; apply in_or_app; left; exact Hr|exact B3|exact B2|].
  set (c2 := prepare e g q l1 (reached e g mid (q :: l1) c1)) in *.
  assert (P4 : pend acts c2) by (unfold pend, c2; rewrite prepare_implicit; exact P3).
  pose proof (prepare_right g F e q l1 _ _ R3) as R4. fold c2 in R4.
  assert (A4 : aware true g v c2) by (apply (aware_ext true g v (reached e g mid (q :: l1) c1)); [apply prepare_known|exact A3]).
  assert (G5 : registered passes c2) by (apply registered_prepare, G4).
  pose proof (opening_ready e g F HF acts q c2 _ (proj1 Sq) P4 R4) as Rq.
  destruct (flows_opening true e g v Hv q c2 Hq) as (O1 & O2 & _).
  { apply (clean_of e g v true (mid ++ [q]) passes q c2 Ha2); [apply in_or_app; right; left; reflexivity|exact Eq|exact G5]. } { exact A4. }
  eexists. exists (fst o). eexists. exists (fst (opening e g q c2)), tail. split; [reflexivity|]. fold bd.
  split; [exact Rp|]. split; [|split; [|exact O2]].
  - replace ((k0 ++ snd o) ++ snd bd ++ snd z ++ emitted e g mid (q :: l1) c1 ++ snd (opening e g q c2))
      with (k0 ++ (snd o ++ snd bd ++ snd z) ++ emitted e g mid (q :: l1) c1 ++ snd (opening e g q c2)) by (rewrite <- !app_assoc; reflexivity).
    rewrite 3 after_app. exact Rq.
  - rewrite !Forall_app. auto.
Qed.
End Frame.
