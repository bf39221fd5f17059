(* Proofs about what graphs know of a buffer. *)
From Verif Require Import Spec_Buffers Spec_Record Proof_Layout Proof_Record Proof_Passes Props_Attach.
From Coq Require Import Lia List.
Import ListNotations.
Local Open Scope N_scope.

Lemma pstate_eta (s : pstate) : {| ps_access := ps_access s; ps_stage := ps_stage s |} = s.
Proof. destruct s; reflexivity. Qed.
Lemma linked_app b l1 : forall l2 s t u, linked b s l1 t -> linked b t l2 u -> linked b s (l1 ++ l2) u.
Proof.
  induction l1 as [|x l1 IH]; intros l2 s t u H1 H2; [cbn in H1; subst; exact H2|].
  cbn [app]. destruct x; cbn [linked] in *; try (eapply IH; eassumption).
  destruct (N.eqb buffer b); [|eapply IH; eassumption]. destruct H1 as (A & B & C). split; [exact A|]. split; [exact B|]. eapply IH; eassumption.
Qed.
Lemma no_barrier_nil b : no_barrier b [].
Proof. intros ? ? ? ? ? ? ? []. Qed.
Lemma no_barrier_app b l1 l2 : no_barrier b l1 -> no_barrier b l2 -> no_barrier b (l1 ++ l2).
Proof. intros H1 H2 b' o s ss ds sa da H. apply in_app_or in H. destruct H; [eapply H1|eapply H2]; eauto. Qed.
Lemma no_barrier_linked b l s : no_barrier b l -> linked b s l s.
Proof.
  induction l as [|x l IH]; intro H; [reflexivity|]. assert (H' : no_barrier b l) by (intros b' o z ss ds sa da Hx; eapply H; right; eauto).
  destruct x; cbn [linked]; auto. destruct (N.eqb_spec buffer b) as [->|]; auto. exfalso. eapply H; [left; reflexivity|reflexivity].
Qed.

(* ---------- two facts about a step: what it says of the buffer is linked; it does not concern the buffer ---------- *)
Section Steps.
Variable b : N.
Definition link (c : rctx) (x : rctx * list cmd) : Prop := linked b (getAccessState c b) (snd x) (getAccessState (fst x) b).
Definition still (c : rctx) (x : rctx * list cmd) : Prop := getAccessState (fst x) b = getAccessState c b /\ no_barrier b (snd x).
Lemma still_link c x : still c x -> link c x.
Proof. intros [A B]. unfold link. rewrite A. apply no_barrier_linked, B. Qed.
Lemma link_seq c x f : link c x -> (link (fst x) (f (fst x))) -> link c (x >>> f).
Proof. destruct x as [c1 l1]. unfold link. cbn [seq2 fst snd]. destruct (f c1) as [c2 l2]. cbn [fst snd]. intros. eapply linked_app; eassumption. Qed.
Lemma still_seq c x f : still c x -> (still (fst x) (f (fst x))) -> still c (x >>> f).
Proof. destruct x as [c1 l1]. unfold still. cbn [seq2 fst snd]. destruct (f c1) as [c2 l2]. cbn [fst snd]. intros [A B] [C D]. split; [congruence|apply no_barrier_app; assumption]. Qed.
Lemma still_emit c c' l : no_barrier b l -> getAccessState c' b = getAccessState c b -> still c (c', l).
Proof. intros. split; assumption. Qed.
Lemma run_all_cons {A} (f : A -> rctx -> rctx * list cmd) a l c : run_all f (a :: l) c = f a c >>> run_all f l.
Proof.
  unfold run_all. cbn [fold_left]. replace ((c, []) >>> f a) with (f a c).
  2:{ cbn [seq2]. destruct (f a c). reflexivity. }
  assert (G : forall l c0 l0, fold_left (fun x a => x >>> f a) l (c0, l0) = (c0, l0) >>> (fun c => fold_left (fun x a => x >>> f a) l (c, []))).
  { induction l0 as [|z l1 IH]; intros c0 l2; cbn [fold_left]; [cbn [seq2]; rewrite app_nil_r; reflexivity|].
    cbn [seq2]. destruct (f z c0) as [c1 l3]. rewrite (IH c1 (l2 ++ l3)). cbn [seq2]. rewrite (IH c1 ([] ++ l3)). cbn [seq2].
    destruct (fold_left _ l1 (c1, [])) as [c4 l4]. cbn. rewrite app_assoc. reflexivity. }
  destruct (f a c) as [c0 l0]. apply G.
Qed.
Lemma link_all {A} (f : A -> rctx -> rctx * list cmd) l : (forall a, In a l -> forall c, link c (f a c)) -> forall c, link c (run_all f l c).
Proof.
  induction l as [|a l IH]; intros H c; [reflexivity|]. rewrite run_all_cons. apply link_seq; [apply H; left; reflexivity|].
  apply IH. intros x Hx. apply H. right; exact Hx.
Qed.
Lemma still_all {A} (f : A -> rctx -> rctx * list cmd) l : (forall a, In a l -> forall c, still c (f a c)) -> forall c, still c (run_all f l c).
Proof.
  induction l as [|a l IH]; intros H c; [split; [reflexivity|apply no_barrier_nil]|]. rewrite run_all_cons. apply still_seq; [apply H; left; reflexivity|].
  apply IH. intros x Hx. apply H. right; exact Hx.
Qed.

Lemma one_command l x : (forall b' o s ss ds sa da, x <> CBufferBarrier b' o s ss ds sa da) -> no_barrier b l -> no_barrier b (x :: l).
Proof. intros H N b' o s ss ds sa da [E|E]; [exfalso; eapply H; exact E|eapply N; exact E]. Qed.
Lemma still_barrier sep c im vt r l w f : still c (memoryBarrier sep c im vt r l w f).
Proof.
  unfold memoryBarrier. cbv zeta. destruct (orb _ _); apply still_emit; try reflexivity; try apply no_barrier_nil.
  apply one_command; [discriminate|apply no_barrier_nil].
Qed.
Lemma still_final e c v l : still c (final_barrier e c v l).
Proof. unfold final_barrier. destruct (N.eqb _ _); [split; [reflexivity|apply no_barrier_nil]|apply still_barrier]. Qed.

Variable K : rctx -> rctx * list cmd -> Prop.
Hypothesis K_still : forall c x, still c x -> K c x.
Hypothesis K_seq : forall c x f, K c x -> K (fst x) (f (fst x)) -> K c (x >>> f).
Hypothesis K_set : forall c l x, K (set_implicit c l) x -> K c x.
Variable e : env.
Hypothesis K_user : forall tag c i, K c (e_action e tag c i).
Lemma K_emit c x : (forall b' o s ss ds sa da, x <> CBufferBarrier b' o s ss ds sa da) -> K c (emit [x] c).
Proof. intro H. apply K_still. apply still_emit; [apply one_command; [exact H|apply no_barrier_nil]|reflexivity]. Qed.
Lemma K_implicit i : forall fuel c v, K c (runImplicit_fuel fuel e c i v).
Proof.
  induction fuel as [|fuel IH]; intros c v; cbn [runImplicit_fuel]; destruct (take_first (v_id v) (rc_implicit c)) as [[[p a] rest]|];
    try (apply K_still; split; [reflexivity|apply no_barrier_nil]); apply (K_set _ rest); set (c1 := set_implicit c rest);
    destruct (e_enabled e p); try (apply K_still; split; [reflexivity|apply no_barrier_nil]).
  destruct a as [src dst w h final|src dst so ss do ds filter final|views final|tag].
  - repeat apply K_seq; try apply IH; try (apply K_still; apply still_barrier); try (apply K_still; apply still_final).
    apply K_emit. discriminate.
  - destruct so, ss, do, ds. repeat apply K_seq; try apply IH; try (apply K_still; apply still_barrier); try (apply K_still; apply still_final).
    apply K_emit. discriminate.
  - cbv zeta. repeat apply K_seq; try (apply K_still; apply still_barrier); try (apply K_still; apply still_final).
    apply K_emit. intros. destruct (isColourFormat _); discriminate.
  - apply K_user.
Qed.
Lemma K_image g p a c : K c (record_image e g p a c).
Proof.
  unfold record_image. cbv zeta. apply K_seq; [apply K_implicit|]. set (c1 := fst _). clearbody c1.
  destruct (andb _ _); [|apply K_still; split; [reflexivity|apply no_barrier_nil]].
  set (v := attach_view a (rp_index p)).
  assert (C : exists c2 cur, (if isInput a then getCurrentLayoutState g c1 (v_image v) (v_type v) (v_range v) else (c1, makeLayoutState L_UNDEFINED)) = (c2, cur)
    /\ rc_buffers c2 = rc_buffers c1).
  { destruct (isInput a); [|eexists _, _; split; reflexivity]. unfold getCurrentLayoutState. cbv zeta.
    repeat destruct (negb _); eexists _, _; split; reflexivity. }
  destruct C as (c2 & cur & -> & E).
  assert (T : forall x, K c2 x -> K c1 x).
  { intros [cx lx] H.
    assert (Q : K c1 ((c2, []) >>> (fun _ => (cx, lx)))).
    { apply K_seq; [apply K_still; split; [unfold getAccessState; cbn; rewrite E; reflexivity|apply no_barrier_nil]|]. exact H. }
    cbn [seq2 app] in Q. exact Q. }
  apply T. destruct (isClearableImage a).
  - repeat apply K_seq; try (apply K_still; apply still_barrier). apply K_emit. intros. destruct (isColourFormat _); discriminate.
  - apply K_still. apply still_barrier.
Qed.
End Steps.

(* ---------- buffer attachments ---------- *)
Lemma barrier_here c b o s wanted :
  let cur := getAccessState c b in let x := bufferBarrier c b o s (ps_access cur) (ps_stage cur) wanted false in
  link b c x /\ getAccessState (fst x) b = wanted.
Proof.
  cbv zeta. set (cur := getAccessState c b).
  assert (E : known_access c b (ps_access cur) (ps_stage cur) = cur).
  { unfold known_access. subst cur. unfold getAccessState. destruct (mfind b (rc_buffers c)) as [s0|]; rewrite ?pstate_eta; [destruct (N.eqb _ _)|]; reflexivity. }
  destruct (buffer_cases c b o s (ps_access cur) (ps_stage cur) wanted false) as [[Hn ->]|[Hn ->]].
  - rewrite E. unfold link. cbn [fst snd set_buffers linked]. rewrite N.eqb_refl.
    assert (G : getAccessState (set_buffers c (mput b wanted (rc_buffers c))) b = wanted) by (unfold getAccessState; cbn; rewrite mfind_mput_same; reflexivity).
    rewrite G, pstate_eta. auto.
  - rewrite E in Hn. unfold link. cbn [fst snd linked]. split; [reflexivity|].
    fold cur. clearbody cur. destruct cur as [x y], wanted as [x' y']. cbn in Hn.
    destruct (N.eq_dec x x') as [->|]; [|exfalso; apply Hn; auto]. destruct (N.eq_dec y y') as [->|]; [reflexivity|exfalso; apply Hn; auto].
Qed.
Lemma barrier_else c b b' o s i1 i2 wanted : b' <> b -> still b c (bufferBarrier c b' o s i1 i2 wanted false).
Proof.
  intro H. destruct (buffer_cases c b' o s i1 i2 wanted false) as [[Hn ->]|[Hn ->]].
  - split; [unfold getAccessState; cbn; rewrite mfind_mput_other by congruence; reflexivity|].
    intros b0 o0 s0 ss ds sa da [E|[]]. injection E as E _ _ _ _ _ _. congruence.
  - split; [reflexivity|apply no_barrier_nil].
Qed.
Definition speaks (a : attach) : bool := andb (negb (isNoTransition a)) (orb (isStorageBuffer a) (orb (isTransferBuffer a) (isTransitionBuffer a))).
Lemma buffer_here p a c : speaks a = true -> let b := attach_buffer a (rp_index p) in
  link b c (record_buffer p a c) /\ getAccessState (fst (record_buffer p a c)) b = {| ps_access := a_getAccessMask a; ps_stage := a_getPipelineStageFlags a (rp_compute p) |}.
Proof.
  intros H b. unfold record_buffer. unfold speaks in H. rewrite H. cbv zeta. fold b.
  set (wanted := {| ps_access := a_getAccessMask a; ps_stage := a_getPipelineStageFlags a (rp_compute p) |}). destruct (isClearableBuffer a); [|apply barrier_here].
  set (tr := {| ps_access := A_TRANSFER_WRITE; ps_stage := S_TRANSFER |}).
  destruct (barrier_here c b (ba_offset a) (ba_size a) tr) as [L1 G1]. cbv zeta in L1, G1.
  set (x1 := bufferBarrier c b _ _ _ _ tr false) in *. clearbody x1. destruct x1 as [c1 l1]. cbn [fst snd] in G1.
  destruct (barrier_here c1 b (ba_offset a) (ba_size a) wanted) as [L2 G2]. cbv zeta in L2, G2. rewrite G1 in L2, G2. cbn [ps_access ps_stage tr] in L2, G2.
  set (k := CFill _ _ _). cbn [seq2 emit]. set (x2 := bufferBarrier c1 b _ _ A_TRANSFER_WRITE S_TRANSFER wanted false) in *. clearbody x2. destruct x2 as [c2 l2]. cbn [fst snd] in *.
  split; [|exact G2]. unfold link in *. cbn [fst snd] in *. rewrite <- app_assoc. eapply linked_app; [exact L1|]. exact L2.
Qed.
Lemma buffer_else p a c b : (speaks a = true -> attach_buffer a (rp_index p) <> b) -> still b c (record_buffer p a c).
Proof.
  intros H. unfold record_buffer. unfold speaks in H. destruct (andb _ _); [|split; [reflexivity|apply no_barrier_nil]].
  specialize (H eq_refl). cbv zeta. destruct (isClearableBuffer a); [|apply barrier_else; exact H].
  repeat apply still_seq; try (apply barrier_else; exact H).
  apply still_emit; [apply one_command; [discriminate|apply no_barrier_nil]|reflexivity].
Qed.

(* ---------- a pass ---------- *)
Section Pass.
Variable b : N.
Variable K : rctx -> rctx * list cmd -> Prop.
Hypothesis K_still : forall c x, still b c x -> K c x.
Hypothesis K_seq : forall c x f, K c x -> K (fst x) (f (fst x)) -> K c (x >>> f).
Hypothesis K_pre : forall c c' x, getAccessState c' b = getAccessState c b -> K c' x -> K c x.
Hypothesis K_post : forall c c' c'' l, getAccessState c'' b = getAccessState c' b -> K c (c', l) -> K c (c'', l).
Variable e : env.
Hypothesis K_user : forall tag c i, K c (e_action e tag c i).
Lemma K_all {A} (f : A -> rctx -> rctx * list cmd) l : (forall a, In a l -> forall c, K c (f a c)) -> forall c, K c (run_all f l c).
Proof.
  induction l as [|a l IH]; intros H c; [apply K_still; split; [reflexivity|apply no_barrier_nil]|]. rewrite run_all_cons. apply K_seq; [apply H; left; reflexivity|].
  apply IH. intros x Hx. apply H. right; exact Hx.
Qed.
Lemma register_same p c : getAccessState (register_all p c) b = getAccessState c b.
Proof.
  unfold register_all. revert c. induction (rp_implicit p) as [|x l IH]; intro c; cbn [fold_left]; [reflexivity|]. rewrite IH. reflexivity.
Qed.
Lemma K_pass g p c : (e_enabled e (rp_id p) = true -> (forall a, In a (rp_buffers p) -> forall c, K c (record_buffer p a c)) /\
    callbacks p (fun f => forall c i, K c (f c i))) -> K c (recordInto e g p c).
Proof.
  intro H. unfold recordInto. destruct (e_enabled e (rp_id p)).
  - destruct (H eq_refl) as [HB HC].
    assert (Q : K c ((c, [CBeginBlock (rp_id p); CTimerBegin (rp_id p)])
         >>> run_all (record_image e g p) (rp_images p)
         >>> run_all (record_buffer p) (rp_buffers p)
         >>> run_all (fun f c => f c (rp_index p)) (rp_pre p)
         >>> (fun c => rp_record p c (rp_index p))
         >>> run_all (fun f c => f c (rp_index p)) (rp_post p)
         >>> emit [CTimerEnd (rp_id p); CEndBlock])).
    { repeat apply K_seq.
      - apply K_still. apply still_emit; [|reflexivity]. apply one_command; [discriminate|]. apply one_command; [discriminate|apply no_barrier_nil].
      - apply K_all. intros a _ c'. apply (K_image b K); auto. intros c0 l x Hx. eapply K_pre; [|exact Hx]. reflexivity.
      - apply K_all. auto.
      - apply K_all. intros f Hf c'. apply HC. auto.
      - apply HC. auto.
      - apply K_all. intros f Hf c'. apply HC. auto.
      - apply K_still. apply still_emit; [|reflexivity]. apply one_command; [discriminate|]. apply one_command; [discriminate|apply no_barrier_nil]. }
    destruct (_ >>> emit _) as [c' l]. eapply K_post; [|exact Q]. apply register_same.
  - apply K_still. split; [apply register_same|apply no_barrier_nil].
Qed.
Lemma prepare_same g p rest c : getAccessState (prepare e g p rest c) b = getAccessState c b.
Proof. unfold prepare. destruct rest; reflexivity. Qed.
Lemma K_loop g passes : (forall p, In p passes -> e_enabled e (rp_id p) = true -> (forall a, In a (rp_buffers p) -> forall c, K c (record_buffer p a c)) /\
    callbacks p (fun f => forall c i, K c (f c i))) -> forall c, K c (fst (record_loop e g passes c)).
Proof.
  induction passes as [|p rest IH]; intros H c; [apply K_still; split; [reflexivity|apply no_barrier_nil]|].
  cbn [record_loop]. assert (P : K (prepare e g p rest c) (recordInto e g p (prepare e g p rest c))) by (apply K_pass; apply H; left; reflexivity).
  apply (K_pre c) in P; [|apply prepare_same]. destruct (recordInto e g p _) as [c2 l1].
  specialize (IH (fun q Hq => H q (or_intror Hq)) c2). destruct (record_loop e g rest c2) as [[c3 l2] tr]. cbn [fst] in *.
  pose proof (K_seq c (c2, l1) (fun _ => (c3, l2)) P IH) as Q. cbn [seq2] in Q. exact Q.
Qed.
End Pass.

(* ---------- declared attachments ---------- *)
Lemma flag_bit x k : hasFlag x (2 ^ k) = N.testbit x k.
Proof.
  unfold hasFlag. destruct (N.testbit x k) eqn:E.
  - apply N.eqb_eq. apply N.bits_inj. intro j. rewrite N.land_spec, N.pow2_bits_eqb. destruct (N.eqb_spec k j) as [->|]; [rewrite E; reflexivity|apply Bool.andb_false_r].
  - apply N.eqb_neq. intro H. assert (T : N.testbit (2 ^ k) k = true) by (apply N.pow2_bits_true). rewrite <- H, N.land_spec, E in T. discriminate.
Qed.
Lemma declared_speaks a m wanted : declared_as a m wanted -> speaks a = tracked_use m.
Proof.
  intros (pass & bufs & binding & bview & off & size & flag & -> & H1 & H2).
  destruct m; try reflexivity. unfold speaks, isNoTransition, isStorageBuffer, isTransferBuffer, isTransitionBuffer, isBuffer.
  cbn [declare_buffer at_flags mk_buffer_attach ba_flags].
  change AF_NoTransition with (2 ^ 4) in *. change AF_Buffer with (2 ^ 3) in *. rewrite !flag_bit, !N.lor_spec in *. rewrite H2. change (N.testbit (2 ^ 3) 3) with true. rewrite !Bool.orb_true_r. reflexivity.
Qed.
Lemma declared_wants a m wanted compute : declared_as a m wanted -> tracked_use m = true ->
  {| ps_access := a_getAccessMask a; ps_stage := a_getPipelineStageFlags a compute |} = use_state m wanted compute.
Proof.
  intros (pass & bufs & binding & bview & off & size & flag & -> & H1 & H2) T. unfold tracked_use in T. unfold use_state.
  destruct (buffer_usage m) eqn:U; try discriminate.
  - destruct (C28_buffer_access_partial m pass bufs binding bview off size wanted flag compute ltac:(congruence) ltac:(congruence) H1) as [-> ->]. rewrite U. reflexivity.
  - destruct (C28_buffer_access_partial m pass bufs binding bview off size wanted flag compute ltac:(congruence) ltac:(congruence) H1) as [-> ->]. rewrite U. reflexivity.
  - destruct (C28_implicit_buffer m pass bufs binding bview off size wanted flag compute U) as [-> ->]. apply pstate_eta.
Qed.
Lemma other_still p a b c : other_buffer b (rp_index p) a -> still b c (record_buffer p a c).
Proof.
  intros [H|(m & w & D & T)]; apply buffer_else; [auto|]. rewrite (declared_speaks _ _ _ D), T. discriminate.
Qed.
Lemma link_buffer p a b c : link b c (record_buffer p a c).
Proof.
  destruct (speaks a) eqn:S.
  - destruct (N.eq_dec (attach_buffer a (rp_index p)) b) as [<-|H]; [apply buffer_here; exact S|]. apply still_link. apply buffer_else. auto.
  - apply still_link. apply buffer_else. congruence.
Qed.

(* ---------- a graph ---------- *)
Lemma start_handed e deps passes b : getAccessState (start_context e deps passes) b = handed b deps.
Proof.
  assert (G : forall deps x, getAccessState (fold_left rc_addStates deps x) b = match mfind b (rc_buffers x) with Some s => s | None => handed b deps end).
  { clear. induction deps as [|d deps IH]; intro x; cbn [fold_left handed]; [reflexivity|]. rewrite IH. unfold rc_addStates at 1. cbn [rc_buffers].
    assert (I : forall (l : nmap pstate) y, mfind b (fold_left (fun acc e => minsert (fst e) (snd e) acc) l y) = match mfind b y with Some s => Some s | None => mfind b l end).
    { induction l as [|[k v] l IHl]; intro y; cbn [fold_left fst snd mfind]; [destruct (mfind b y); reflexivity|].
      rewrite IHl, mfind_minsert. destruct (mfind b y); [reflexivity|]. destruct (N.eqb b k); reflexivity. }
    rewrite I. destruct (mfind b (rc_buffers x)); [reflexivity|]. destruct (mfind b (rc_buffers d)); reflexivity. }
  unfold start_context. destruct passes; cbn [getAccessState setNextPipelineState]; unfold getAccessState in *; cbn [rc_buffers setNextPipelineState]; rewrite G; reflexivity.
Qed.
Lemma graph_run {A} (F : rctx * list cmd -> A) e g deps passes :
  F (g_final (fst (fst (record_graph e g deps passes))), snd (fst (record_graph e g deps passes))) = F (fst (record_loop e g passes (start_context e deps passes))).
Proof. unfold record_graph. destruct (record_loop e g passes (start_context e deps passes)) as [[c l] tr]. reflexivity. Qed.
Lemma graph_linked e g deps passes b : (forall tag, follows b (e_action e tag)) -> (forall p, In p passes -> callbacks p (follows b)) ->
  let r := record_graph e g deps passes in linked b (handed b deps) (snd (fst r)) (final_access (fst (fst r)) b).
Proof.
  intros Hu Hp r. rewrite <- (start_handed e deps passes b). unfold final_access.
  pose proof (graph_run (link b (start_context e deps passes)) e g deps passes) as G. unfold link at 1 in G. cbn [fst snd] in G. fold r in G. rewrite G. clear G.
  apply (K_loop b (link b)).
  - intros; apply still_link; assumption.
  - intros; apply link_seq; assumption.
  - intros c c' x E H. unfold link in *. rewrite <- E. exact H.
  - intros c c' c'' l E H. unfold link in *. cbn [fst snd] in *. rewrite E. exact H.
  - intros tag c i. apply Hu.
  - intros p Hi _. split; [intros; apply link_buffer|]. intros f Hf c i. apply (Hp p Hi f Hf).
Qed.
Lemma loop_ignoring e g b passes c : (forall tag, ignores b (e_action e tag)) -> (forall p, In p passes -> ignoring_pass e b p) ->
  still b c (fst (record_loop e g passes c)).
Proof.
  intros Hu Hp. apply (K_loop b (still b)).
  - auto.
  - intros; apply still_seq; assumption.
  - intros c1 c' x E [A B]. split; [congruence|exact B].
  - intros c1 c' c'' l E [A B]. split; [cbn [fst] in *; congruence|exact B].
  - intros tag c1 i. apply Hu.
  - intros p Hi En. destruct (Hp p Hi En) as [HB HC]. split; [intros a Ha c1; apply other_still; auto|exact HC].
Qed.
Lemma graph_ignoring e g deps passes b : (forall tag, ignores b (e_action e tag)) -> (forall p, In p passes -> ignoring_pass e b p) ->
  let r := record_graph e g deps passes in final_access (fst (fst r)) b = handed b deps /\ no_barrier b (snd (fst r)).
Proof.
  intros Hu Hp r. rewrite <- (start_handed e deps passes b). unfold final_access.
  pose proof (graph_run (still b (start_context e deps passes)) e g deps passes) as G. unfold still at 1 in G. cbn [fst snd] in G. fold r in G. rewrite G.
  apply loop_ignoring; assumption.
Qed.
Lemma loop_app e g l1 : forall l2 p c, exists c1, record_loop e g (l1 ++ p :: l2) c =
  (let '(c2, cs) := recordInto e g p (prepare e g p l2 c1) in let '(c3, cs', tr') := record_loop e g l2 c2 in
   (c3, firstn (length (snd (fst (record_loop e g (l1 ++ p :: l2) c))) - length (cs ++ cs')) (snd (fst (record_loop e g (l1 ++ p :: l2) c))) ++ cs ++ cs', snd (record_loop e g (l1 ++ p :: l2) c))).
Proof.
  induction l1 as [|q l1 IH]; intros l2 p c.
  - exists c. cbn [app record_loop]. destruct (recordInto e g p _) as [c2 cs]. destruct (record_loop e g l2 c2) as [[c3 cs'] tr']. cbn [fst snd].
    rewrite PeanoNat.Nat.sub_diag. reflexivity.
  - cbn [app record_loop]. destruct (recordInto e g q _) as [cq lq]. destruct (IH l2 p cq) as (c1 & E). exists c1.
    destruct (recordInto e g p _) as [c2 cs]. destruct (record_loop e g l2 c2) as [[c3 cs'] tr'].
    destruct (record_loop e g (l1 ++ p :: l2) cq) as [[c4 l4] tr4]. cbn [fst snd] in *. injection E as E1 E2. subst c3. f_equal. f_equal.
    set (k := length (cs ++ cs')) in *. rewrite app_length.
    assert (Hk : l4 = firstn (length l4 - k) l4 ++ cs ++ cs') by exact E2. assert (Hl : (k <= length l4)%nat).
    { rewrite Hk, app_length. subst k. lia. }
    replace (length lq + length l4 - k)%nat with (length lq + (length l4 - k))%nat by lia.
    rewrite firstn_app_2. rewrite <- app_assoc. f_equal. exact Hk.
Qed.
Lemma runs_app {A} (f : A -> rctx -> rctx * list cmd) l1 l2 : forall c, run_all f (l1 ++ l2) c = run_all f l1 c >>> run_all f l2.
Proof.
  induction l1 as [|x l IH]; intro c; cbn [app].
  - change (run_all f [] c) with (c, @nil cmd). cbn [seq2]. destruct (run_all f l2 c). reflexivity.
  - rewrite !(run_all_cons f x). destruct (f x c) as [c1 k1]. cbn [seq2]. rewrite IH.
    destruct (run_all f l c1) as [c2 k2]. cbn [seq2]. destruct (run_all f l2 c2) as [c3 k3]. rewrite app_assoc. reflexivity.
Qed.
Lemma pass_uses e g b p ba a bb m wanted c : e_enabled e (rp_id p) = true -> rp_buffers p = ba ++ a :: bb -> declared_as a m wanted -> tracked_use m = true ->
  attach_buffer a (rp_index p) = b -> (forall x, In x bb -> other_buffer b (rp_index p) x) -> callbacks p (ignores b) ->
  getAccessState (fst (recordInto e g p c)) b = use_state m wanted (rp_compute p).
Proof.
  intros En Eb D T Ea Hb HC. unfold recordInto. rewrite En.
  set (A := (c, [CBeginBlock (rp_id p); CTimerBegin (rp_id p)]) >>> run_all (record_image e g p) (rp_images p)). destruct A as [cA lA].
  assert (G : forall (x : rctx * list cmd) f, getAccessState (fst (x >>> f)) b = getAccessState (fst (f (fst x))) b).
  { intros [cx lx] f. cbn [seq2 fst]. destruct (f cx). reflexivity. }
  assert (Z : forall x, getAccessState (fst (let '(c0, l) := x in (register_all p c0, l))) b = getAccessState (fst (x : rctx * list cmd)) b).
  { intros [cx lx]. cbn [fst]. apply register_same. }
  rewrite Z. rewrite G. cbn [emit fst].
  assert (R : forall l c0, (forall f, In f l -> ignores b f) -> getAccessState (fst (run_all (fun f c => f c (rp_index p)) l c0)) b = getAccessState c0 b).
  { intros l c0 H. apply (still_all b). intros f Hf c1. apply (H f Hf). }
  rewrite G, R by (intros f Hf; apply HC; auto). rewrite G. rewrite (proj1 (HC (rp_record p) (or_intror (or_intror eq_refl)) _ _)).
  rewrite G, R by (intros f Hf; apply HC; auto). rewrite G. cbn [fst]. rewrite Eb.
  rewrite runs_app, G. set (c1 := fst (run_all (record_buffer p) ba cA)). rewrite run_all_cons, G.
  rewrite (proj1 (still_all b _ bb (fun x Hx c2 => other_still p x b c2 (Hb x Hx)) _)).
  assert (Sp : speaks a = true) by (rewrite (declared_speaks _ _ _ D); exact T).
  destruct (buffer_here p a c1 Sp) as [_ H]. rewrite Ea in H. rewrite H. apply declared_wants; assumption.
Qed.
Lemma graph_last_use e g deps l1 p l2 b ba a bb m wanted : e_enabled e (rp_id p) = true -> rp_buffers p = ba ++ a :: bb ->
  declared_as a m wanted -> tracked_use m = true -> attach_buffer a (rp_index p) = b ->
  (forall x, In x bb -> other_buffer b (rp_index p) x) -> callbacks p (ignores b) ->
  (forall tag, ignores b (e_action e tag)) -> (forall q, In q l2 -> ignoring_pass e b q) ->
  final_access (fst (fst (record_graph e g deps (l1 ++ p :: l2)))) b = use_state m wanted (rp_compute p).
Proof.
  intros En Eb D T Ea Hb HC Hu Hq. unfold final_access.
  pose proof (graph_run (fun x => getAccessState (fst x) b) e g deps (l1 ++ p :: l2)) as G. cbn [fst snd] in G. rewrite G. clear G.
  destruct (loop_app e g l1 l2 p (start_context e deps (l1 ++ p :: l2))) as (c1 & E). 
  pose proof (pass_uses e g b p ba a bb m wanted (prepare e g p l2 c1) En Eb D T Ea Hb HC) as P.
  destruct (recordInto e g p _) as [c2 cs]. pose proof (loop_ignoring e g b l2 c2 Hu Hq) as [L _].
  destruct (record_loop e g l2 c2) as [[c3 cs'] tr']. rewrite E. cbn [fst] in *. congruence.
Qed.
