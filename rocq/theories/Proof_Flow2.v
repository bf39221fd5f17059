(* Proofs about the contents of a view, continued: whole recordings. *)
From Verif Require Import Spec_Flow Proof_Layout Proof_Record Proof_Run2 Proof_Run3 Proof_Device Proof_Device2 Proof_Device3 Proof_Flow.
Local Open Scope N_scope.

(* Nothing but the passes registers implicit actions. *)
Lemma barrier_implicit sep c im vt r i w f : rc_implicit (fst (memoryBarrier sep c im vt r i w f)) = rc_implicit c.
Proof. destruct (barrier_cases sep c im vt r i w f) as [[_ ->]|[_ ->]]; reflexivity. Qed.
Definition calm (c : rctx) (x : rctx * list cmd) : Prop := incl (rc_implicit (fst x)) (rc_implicit c).
Lemma calm_seq c x f : calm c x -> (forall c', calm c' (f c')) -> calm c (x >>> f).
Proof. intros A H. destruct x as [c1 l1]. cbn [seq2]. specialize (H c1). destruct (f c1) as [c2 l2]. exact (incl_tran H A). Qed.
Lemma calm_eq c x : rc_implicit (fst x) = rc_implicit c -> calm c x.
Proof. intro E. unfold calm. rewrite E. apply incl_refl. Qed.
Lemma calm_emit c l : calm c (emit l c). Proof. apply incl_refl. Qed.
Lemma calm_all {B} (f : B -> rctx -> rctx * list cmd) l : (forall a, In a l -> forall c, calm c (f a c)) -> forall c, calm c (run_all f l c).
Proof.
  induction l as [|a l IH]; intros H c; [apply incl_refl|]. rewrite run_all_cons. apply calm_seq; [apply H; left; reflexivity|]. apply IH. intros b Hb. apply H. right. exact Hb.
Qed.
Lemma calm_final e c w l : calm c (final_barrier e c w l).
Proof. unfold final_barrier. destruct (N.eqb l L_UNDEFINED); [apply incl_refl|apply calm_eq, barrier_implicit]. Qed.
Lemma calm_runs e i : quiet_env e -> forall fuel c w, calm c (runImplicit_fuel fuel e c i w).
Proof.
  intro Q. induction fuel as [|fuel IH]; intros c w; cbn [runImplicit_fuel];
    (destruct (take_first (v_id w) (rc_implicit c)) as [[[q a] rest]|] eqn:E; [|apply incl_refl]);
    destruct (take_first_in _ _ _ _ _ E) as [_ Hr];
    (assert (W : forall x, calm (set_implicit c rest) x -> calm c x) by (intros x X; exact (incl_tran X Hr)));
    apply W; (destruct (e_enabled e q); [apply incl_refl|]); [apply incl_refl|].
  destruct a as [src dst x y final|src dst [sx sy] [sw sh] [dx dy] [dw dh] fil final|views final|tag].
  - repeat (apply calm_seq); try (intro c'); try apply calm_final; try apply calm_emit; try (apply calm_eq, barrier_implicit). apply IH.
  - repeat (apply calm_seq); try (intro c'); try apply calm_final; try apply calm_emit; try (apply calm_eq, barrier_implicit). apply IH.
  - repeat (apply calm_seq); try (intro c'); try apply calm_final; try apply calm_emit; try (apply calm_eq, barrier_implicit).
  - apply (Q tag).
Qed.
Lemma current_implicit g c im vt r : rc_implicit (fst (getCurrentLayoutState g c im vt r)) = rc_implicit c.
Proof. unfold getCurrentLayoutState. repeat match goal with |- context [if ?b then _ else _] => destruct b end; reflexivity. Qed.
Lemma calm_image e g p a c : quiet_env e -> calm c (record_image e g p a c).
Proof.
  intro Q. unfold record_image. apply calm_seq; [apply calm_runs, Q|]. intro c'.
  match goal with |- calm _ (if ?b then _ else _) => destruct b end; [|apply incl_refl].
  set (w := attach_view a (rp_index p)).
  assert (C : rc_implicit (fst (if isInput a then getCurrentLayoutState g c' (v_image w) (v_type w) (v_range w) else (c', makeLayoutState L_UNDEFINED))) = rc_implicit c')
    by (destruct (isInput a); [apply current_implicit|reflexivity]).
  cbn zeta. destruct (if isInput a then _ else _) as [c1 cur]. cbn [fst] in C. unfold calm. rewrite <- C. fold (calm c1 (c1, @nil cmd)).
  match goal with |- incl (rc_implicit (fst ?x)) _ => change (calm c1 x) end. unfold memoryBarrier_view. destruct (isClearableImage a); [|apply calm_eq, barrier_implicit].
  repeat (apply calm_seq); try (intro c2); try apply calm_emit; apply calm_eq, barrier_implicit.
Qed.
Lemma calm_buffer p a c : calm c (record_buffer p a c).
Proof.
  assert (N : forall c b o s m t w f, calm c (bufferBarrier c b o s m t w f)) by (intros; unfold bufferBarrier; destruct (orb _ _); apply incl_refl).
  unfold record_buffer. destruct (andb _ _); [|apply incl_refl]. destruct (isClearableBuffer a); [|apply N].
  apply calm_seq; [apply calm_seq; [apply N|]|]; intro c'; [apply calm_emit|apply N].
Qed.
Section Whole.
Context (e : env) (g : rgraph) (Qe : quiet_env e).
Lemma calm_opening p c : quiet_pass p -> calm c (opening e g p c).
Proof.
  intro Q. unfold opening. repeat apply calm_seq; [apply incl_refl|intro c'..].
  - apply calm_all. intros a _ c0. apply calm_image, Qe.
  - apply calm_all. intros a _ c0. apply calm_buffer.
  - apply calm_all. intros f Hf c0. apply Q. left. exact Hf.
Qed.
Lemma calm_closing p c : quiet_pass p -> calm c (closing p c).
Proof. intro Q. unfold closing. apply calm_seq; [|intro; apply calm_emit]. apply calm_all. intros f Hf c0. apply Q. right. left. exact Hf. Qed.

(* The registered actions are those of the passes. *)
Definition registered (all : list rpass) (c : rctx) : Prop := forall p w a, In (p, w, a) (rc_implicit c) -> exists q, In q all /\ In (w, a) (rp_implicit q).
Lemma registered_incl all c c' : incl (rc_implicit c') (rc_implicit c) -> registered all c -> registered all c'.
Proof. intros H R p w a Hx. apply (R p), H, Hx. Qed.
Lemma registered_all all p c : In p all -> registered all c -> registered all (register_all p c).
Proof.
  intro Hp. unfold register_all. assert (G : forall l, incl l (rp_implicit p) -> forall c, registered all c -> registered all (fold_left (fun c va => registerImplicit c (rp_id p) (fst va) (snd va)) l c)).
  { induction l as [|[w a] l IH]; intros Hl c0 R; [exact R|]. cbn [fold_left]. apply IH; [intros x Hx; apply Hl; right; exact Hx|].
    intros q u b Hin. cbn in Hin. apply in_app_or in Hin. destruct Hin as [Hin|[E|[]]]; [apply (R q), Hin|]. injection E as _ <- <-. exists p. split; [exact Hp|]. apply Hl. left. reflexivity. }
  apply G, incl_refl.
Qed.
Lemma registered_into all p c : In p all -> quiet_pass p -> registered all c -> registered all (fst (recordInto e g p c)).
Proof.
  intros Hp Q R. destruct (e_enabled e (rp_id p)) eqn:En.
  - rewrite (into_opening e g p c En). cbn [fst]. apply registered_all; [exact Hp|]. apply (registered_incl all c); [|exact R].
    refine (incl_tran (calm_closing p _ Q) _). refine (incl_tran (Q _ (or_intror (or_intror eq_refl)) _ _) _). apply calm_opening, Q.
  - unfold recordInto. rewrite En. cbn [fst]. apply registered_all; assumption.
Qed.
Lemma registered_prepare all p rest c : registered all c -> registered all (prepare e g p rest c).
Proof. unfold registered. rewrite prepare_implicit. auto. Qed.

(* The commands before a pass and the context handed to it. *)
Lemma reach_pass all l1 : forall l2 c, incl l1 all -> (forall p, In p l1 -> quiet_pass p) -> registered all c ->
  exists before c', snd (fst (record_loop e g (l1 ++ l2) c)) = before ++ snd (fst (record_loop e g l2 c')) /\
    fst (fst (record_loop e g (l1 ++ l2) c)) = fst (fst (record_loop e g l2 c')) /\ registered all c'.
Proof.
  induction l1 as [|p l1 IH]; intros l2 c Hi Q R; [exists [], c; auto|]. cbn [app record_loop].
  set (c1 := prepare e g p (l1 ++ l2) c). assert (R1 : registered all c1) by (apply registered_prepare, R).
  pose proof (registered_into all p c1 (Hi p (or_introl eq_refl)) (Q p (or_introl eq_refl)) R1) as R2.
  destruct (recordInto e g p c1) as [c2 l3]. cbn [fst] in R2.
  destruct (IH l2 c2 (fun x Hx => Hi x (or_intror Hx)) (fun x Hx => Q x (or_intror Hx)) R2) as (b & c' & E & E' & R').
  destruct (record_loop e g (l1 ++ l2) c2) as [[c3 l4] tr]. cbn [fst snd] in *. exists (l3 ++ b), c'. rewrite E, app_assoc. auto.
Qed.

Section View.
Context (v : view) (Hv : view_ok v).
Lemma prepare_known p rest c w : known_layout (prepare e g p rest c) w = known_layout c w.
Proof. unfold prepare. destruct rest; reflexivity. Qed.
Lemma clean_of own run all p c : careful_actions own e g v run all -> In p run -> e_enabled e (rp_id p) = true -> registered all c -> clean own e g v (rp_index p) c.
Proof. intros H Hp En R q w a Hin. destruct (R q w a Hin) as (x & Hx & Ha). exact (H p x w a Hp Hx En Ha). Qed.

Lemma flows_into own run all p c : careful_actions own e g v run all -> In p run -> In p all -> quiet_pass p -> (e_enabled e (rp_id p) = true -> careful_pass own g v p) ->
  registered all c -> aware own g v c ->
  Forall (preserves v) (snd (recordInto e g p c)) /\ aware own g v (fst (recordInto e g p c)) /\ registered all (fst (recordInto e g p c)).
Proof.
  intros Ha Hp Hp' Q Hc R A. split; [|split; [|apply registered_into; assumption]].
  - destruct (e_enabled e (rp_id p)) eqn:En; [|unfold recordInto; rewrite En; constructor].
    rewrite (into_opening e g p c En). cbn [snd]. destruct (Hc eq_refl) as (H1 & H2 & H3).
    destruct (flows_opening own e g v Hv p c H1 (clean_of own run all p c Ha Hp En R) A) as (O1 & O2 & _).
    destruct (H2 _ O2) as (B1 & B2 & _). destruct (flows_closing own g v p _ H3 B2) as (C1 & _). rewrite !Forall_app. auto.
  - destruct (e_enabled e (rp_id p)) eqn:En.
    + rewrite (into_opening e g p c En). cbn [fst]. destruct (Hc eq_refl) as (H1 & H2 & H3).
      destruct (flows_opening own e g v Hv p c H1 (clean_of own run all p c Ha Hp En R) A) as (O1 & O2 & _).
      destruct (H2 _ O2) as (B1 & B2 & _). destruct (flows_closing own g v p _ H3 B2) as (_ & C1 & _).
      apply (aware_ext own g v _ _ (register_known p _ v)). exact C1.
    + unfold recordInto. rewrite En. cbn [fst]. apply (aware_ext own g v _ _ (register_known p _ v)). exact A.
Qed.
Lemma flows_prefix own run all l1 : careful_actions own e g v run all -> forall l2 c, incl l1 run -> incl l1 all -> (forall p, In p l1 -> quiet_pass p) ->
  (forall p, In p l1 -> e_enabled e (rp_id p) = true -> careful_pass own g v p) -> registered all c -> aware own g v c ->
  exists before c', snd (fst (record_loop e g (l1 ++ l2) c)) = before ++ snd (fst (record_loop e g l2 c')) /\
    fst (fst (record_loop e g (l1 ++ l2) c)) = fst (fst (record_loop e g l2 c')) /\ registered all c' /\ Forall (preserves v) before /\ aware own g v c'.
Proof.
  intro Ha. induction l1 as [|p l1 IH]; intros l2 c Hr Hi Q Hc R A; [exists [], c; auto 6|]. cbn [app record_loop].
  set (c1 := prepare e g p (l1 ++ l2) c). assert (R1 : registered all c1) by (apply registered_prepare, R).
  assert (A1 : aware own g v c1) by (apply (aware_ext own g v c); [apply prepare_known|exact A]).
  destruct (flows_into own run all p c1 Ha (Hr p (or_introl eq_refl)) (Hi p (or_introl eq_refl)) (Q p (or_introl eq_refl)) (Hc p (or_introl eq_refl)) R1 A1) as (P2 & A2 & R2).
  destruct (recordInto e g p c1) as [c2 l3]. cbn [fst snd] in *.
  destruct (IH l2 c2 (fun x Hx => Hr x (or_intror Hx)) (fun x Hx => Hi x (or_intror Hx)) (fun x Hx => Q x (or_intror Hx)) (fun x Hx => Hc x (or_intror Hx)) R2 A2) as (b & c' & E & E' & R' & P' & A').
  destruct (record_loop e g (l1 ++ l2) c2) as [[c3 l4] tr]. cbn [fst snd] in *. exists (l3 ++ b), c'. rewrite E, app_assoc. split; [reflexivity|]. split; [exact E'|]. split; [exact R'|]. split; [apply Forall_app; auto|exact A'].
Qed.
(* From the start of a list of passes to the body of a pass. *)
Lemma flows_to_body own run all l1 q l2 c : careful_actions own e g v run all -> incl l1 run -> In q run -> incl l1 all -> In q all ->
  (forall p, In p l1 -> quiet_pass p) -> (forall p, In p l1 -> e_enabled e (rp_id p) = true -> careful_pass own g v p) ->
  e_enabled e (rp_id q) = true -> careful_before own g v q -> registered all c -> aware own g v c ->
  exists before cq tail, snd (fst (record_loop e g (l1 ++ q :: l2) c)) = before ++ snd (rp_record q cq (rp_index q)) ++ tail /\ Forall (preserves v) before /\ aware own g v cq.
Proof.
  intros Ha Hr Hq Hi Hqi Q Hc En Hb R A. destruct (flows_prefix own run all l1 Ha (q :: l2) c Hr Hi Q Hc R A) as (b & c' & E & _ & R' & P' & A'). rewrite E.
  cbn [record_loop]. set (c1 := prepare e g q l2 c'). assert (R1 : registered all c1) by (apply registered_prepare, R').
  assert (A1 : aware own g v c1) by (apply (aware_ext own g v c'); [apply prepare_known|exact A']).
  destruct (flows_opening own e g v Hv q c1 Hb (clean_of own run all q c1 Ha Hq En R1) A1) as (O1 & O2 & _).
  rewrite (into_opening e g q c1 En). set (o := opening e g q c1) in *. set (x := record_loop e g l2 _). destruct x as [[c3 l3] tr]. cbn [fst snd].
  exists (b ++ snd o), (fst o), (snd (closing q (fst (rp_record q (fst o) (rp_index q)))) ++ l3). rewrite <- !app_assoc. split; [reflexivity|]. split; [apply Forall_app; auto|exact O2].
Qed.

(* A pass that uses the view makes it known. *)
Lemma known_barrier sep c w initial wanted : near v w -> known_layout c v <> L_UNDEFINED -> known_layout (fst (memoryBarrier sep c (v_image w) (v_type w) (v_range w) initial wanted false)) v <> L_UNDEFINED.
Proof.
  intros [Hw D] K. destruct D as [S|S].
  - apply (flows_barrier_same true g v Hv sep c w initial wanted Hw S (or_introl K) K). exact K.
  - apply (flows_barrier_separate true g v Hv sep c w initial wanted Hw S K).
Qed.
Lemma known_image p a c : near v (attach_view a (rp_index p)) -> clean true e g v (rp_index p) c -> known_layout c v <> L_UNDEFINED ->
  known_layout (fst (record_image e g p a c)) v <> L_UNDEFINED.
Proof.
  intros Nw P K. unfold record_image. set (w := attach_view a (rp_index p)) in *.
  pose proof (flows_implicit true e g v Hv (rp_index p) (length (rc_implicit c)) c w P K) as (_ & K0 & _). fold (runImplicit e c (rp_index p) w) in K0. cbn [aware] in K0.
  destruct (runImplicit e c (rp_index p) w) as [c0 l0]. cbn [fst seq2] in *. 
  match goal with |- context [if ?b then _ else (c0, [])] => destruct b end; [|exact K0].
  assert (C : exists c1 cur, (if isInput a then getCurrentLayoutState g c0 (v_image w) (v_type w) (v_range w) else (c0, makeLayoutState L_UNDEFINED)) = (c1, cur) /\ known_layout c1 v <> L_UNDEFINED).
  { destruct (isInput a); [|exists c0, (makeLayoutState L_UNDEFINED); auto].
    destruct (getCurrentLayoutState g c0 (v_image w) (v_type w) (v_range w)) as [c1 s] eqn:E. exists c1, s. split; [reflexivity|].
    destruct Nw as [Hw D]. destruct (current_known g c0 w Hw c1 s E) as (_ & I2 & _ & I4). destruct D as [S|S].
    - assert (Es : ls_layout s = said g c0 w) by (unfold said; rewrite E; reflexivity).
      rewrite (region_said g c0 w v Hw Hv S), said_known in Es by exact K0.
      rewrite <- (region_known c1 w v Hw Hv S). unfold known_layout. rewrite I2; rewrite Es; exact K0.
    - rewrite I4 by assumption. exact K0. }
  destruct C as (c1 & cur & -> & K1). unfold memoryBarrier_view. destruct (isClearableImage a).
  - pose proof (known_barrier (e_separate e) c1 w (ls_layout cur) transfer_dst_state Nw K1) as K2. destruct (memoryBarrier _ _ _ _ _ _ transfer_dst_state _) as [c2 l2]. cbn [fst seq2 emit] in *.
    pose proof (known_barrier (e_separate e) c2 w L_TRANSFER_DST (makeLayoutState (a_getImageLayout a (e_separate e))) Nw K2) as K3. destruct (memoryBarrier _ _ _ _ _ _ (makeLayoutState _) _) as [c3 l3]. exact K3.
  - pose proof (known_barrier (e_separate e) c1 w (ls_layout cur) (makeLayoutState (a_getImageLayout a (e_separate e))) Nw K1) as K2. destruct (memoryBarrier _ _ _ _ _ _ (makeLayoutState _) _) as [c3 l3]. exact K2.
Qed.
Lemma known_use p a c : view_ok (attach_view a (rp_index p)) -> same_region (attach_view a (rp_index p)) v -> has_transition a = true -> a_getImageLayout a (e_separate e) <> L_UNDEFINED ->
  known_layout (fst (record_image e g p a c)) v <> L_UNDEFINED.
Proof.
  intros Hw S T L. unfold record_image. set (w := attach_view a (rp_index p)) in *. destruct (runImplicit e c (rp_index p) w) as [c0 l0]. cbn [seq2]. unfold has_transition in T. rewrite T.
  assert (B : forall c1 initial, initial <> a_getImageLayout a (e_separate e) \/ known_layout c1 v <> L_UNDEFINED ->
     known_layout (fst (memoryBarrier (e_separate e) c1 (v_image w) (v_type w) (v_range w) initial (makeLayoutState (a_getImageLayout a (e_separate e))) false)) v <> L_UNDEFINED).
  { intros c1 initial H. destruct (barrier_cases (e_separate e) c1 (v_image w) (v_type w) (v_range w) initial (makeLayoutState (a_getImageLayout a (e_separate e))) false) as [[_ ->]|[Hn ->]]; cbn [fst].
    - rewrite (proj1 (set_known c1 w v _ Hw Hv) S). exact L.
    - intro K. apply Hn. right. split; [left|exact L]. unfold known_state. fold (known_layout c1 w). rewrite (region_known c1 w v Hw Hv S), K. cbn. destruct H as [H|H]; [exact H|contradiction]. }
  assert (C : exists c1 cur, (if isInput a then getCurrentLayoutState g c0 (v_image w) (v_type w) (v_range w) else (c0, makeLayoutState L_UNDEFINED)) = (c1, cur) /\
     (ls_layout cur <> a_getImageLayout a (e_separate e) \/ known_layout c1 v <> L_UNDEFINED)).
  { destruct (isInput a); [|exists c0, (makeLayoutState L_UNDEFINED); split; [reflexivity|left; cbn; congruence]].
    destruct (getCurrentLayoutState g c0 (v_image w) (v_type w) (v_range w)) as [c1 s] eqn:E. exists c1, s. split; [reflexivity|].
    destruct (current_known g c0 w Hw c1 s E) as (_ & I2 & _ & _). destruct (N.eq_dec (ls_layout s) L_UNDEFINED) as [Z|Z]; [left; congruence|right].
    rewrite <- (region_known c1 w v Hw Hv S). unfold known_layout. rewrite I2 by exact Z. exact Z. }
  destruct C as (c1 & cur & -> & K1). unfold memoryBarrier_view. destruct (isClearableImage a).
  - assert (K2 : known_layout (fst (memoryBarrier (e_separate e) c1 (v_image w) (v_type w) (v_range w) (ls_layout cur) transfer_dst_state false)) v <> L_UNDEFINED \/ L_TRANSFER_DST <> a_getImageLayout a (e_separate e)).
    { destruct (barrier_cases (e_separate e) c1 (v_image w) (v_type w) (v_range w) (ls_layout cur) transfer_dst_state false) as [[_ ->]|[Hn ->]]; cbn [fst].
      - left. rewrite (proj1 (set_known c1 w v _ Hw Hv) S). discriminate.
      - destruct (N.eq_dec (known_layout c1 v) L_UNDEFINED) as [K|K]; [|left; exact K].
        destruct (N.eq_dec (ls_layout cur) L_TRANSFER_DST) as [Ec|Ec].
        + right. destruct K1 as [K1|K1]; [congruence|contradiction].
        + exfalso. apply Hn. right. split; [left|discriminate]. unfold known_state. fold (known_layout c1 w). rewrite (region_known c1 w v Hw Hv S), K. exact Ec. }
    destruct (memoryBarrier _ _ _ _ _ _ transfer_dst_state _) as [c2 l2]. cbn [fst seq2 emit] in *.
    specialize (B c2 L_TRANSFER_DST ltac:(tauto)). destruct (memoryBarrier _ _ _ _ _ _ (makeLayoutState _) _) as [c3 l3]. exact B.
  - specialize (B c1 (ls_layout cur) K1). destruct (memoryBarrier _ _ _ _ _ _ (makeLayoutState _) _) as [c3 l3]. exact B.
Qed.
Lemma known_images run all p : careful_actions true e g v run all -> In p run -> e_enabled e (rp_id p) = true -> uses e v p -> (forall a, In a (rp_images p) -> near v (attach_view a (rp_index p))) ->
  forall c, registered all c -> known_layout (fst (run_all (record_image e g p) (rp_images p) c)) v <> L_UNDEFINED.
Proof.
  intros Ha Hp En (a & Hin & S & T & L) Hn.
  assert (G1 : forall l, (forall a, In a l -> near v (attach_view a (rp_index p))) -> forall c, registered all c -> known_layout c v <> L_UNDEFINED -> known_layout (fst (run_all (record_image e g p) l c)) v <> L_UNDEFINED).
  { induction l as [|b l IH]; intros Hl c R K; [exact K|]. rewrite run_all_cons.
    pose proof (known_image p b c (Hl b (or_introl eq_refl)) (clean_of true run all p c Ha Hp En R) K) as K1.
    pose proof (registered_incl all c _ (calm_image e g p b c Qe) R) as R1. destruct (record_image e g p b c) as [c1 l1]. cbn [fst seq2] in *.
    specialize (IH (fun x Hx => Hl x (or_intror Hx)) c1 R1 K1). destruct (run_all _ l c1) as [c2 l2]. exact IH. }
  revert Hin Hn. induction (rp_images p) as [|b l IH]; intros Hin Hn c R; [destruct Hin|]. rewrite run_all_cons.
  pose proof (registered_incl all c _ (calm_image e g p b c Qe) R) as R1. destruct Hin as [->|Hin].
  - pose proof (known_use p a c (proj1 (Hn a (or_introl eq_refl))) S T L) as K1. destruct (record_image e g p a c) as [c1 l1]. cbn [fst seq2] in *.
    specialize (G1 l (fun x Hx => Hn x (or_intror Hx)) c1 R1 K1). destruct (run_all _ l c1) as [c2 l2]. exact G1.
  - destruct (record_image e g p b c) as [c1 l1]. cbn [fst seq2] in *. specialize (IH Hin (fun x Hx => Hn x (or_intror Hx)) c1 R1). destruct (run_all _ l c1) as [c2 l2]. exact IH.
Qed.
Lemma established run all p c : careful_actions true e g v run all -> In p run -> e_enabled e (rp_id p) = true -> establishes e v p -> quiet_pass p -> registered all c ->
  known_layout (fst (rp_record p (fst (opening e g p c)) (rp_index p))) v <> L_UNDEFINED.
Proof.
  intros Ha Hp En [(U & Hn & Hr)|T] Q R; [|apply T]. apply Hr; [right; reflexivity|]. unfold opening. cbn [seq2].
  pose proof (known_images run all p Ha Hp En U Hn c R) as K. destruct (run_all (record_image e g p) (rp_images p) c) as [c1 l1]. cbn [fst seq2] in *.
  pose proof (flows_buffers true g v p c1 K) as (_ & K2 & _). destruct (run_all (record_buffer p) (rp_buffers p) c1) as [c2 l2]. cbn [fst seq2] in *.
  assert (G : forall l, (forall f, In f l -> remembers v p f) -> forall c, known_layout c v <> L_UNDEFINED -> known_layout (fst (run_all (fun (f : rctx -> nat -> rctx * list cmd) c => f c (rp_index p)) l c)) v <> L_UNDEFINED).
  { clear. induction l as [|f l IH]; intros H c K; [exact K|]. rewrite run_all_cons. pose proof (H f (or_introl eq_refl) c K) as K1. destruct (f c (rp_index p)) as [c1 l1]. cbn [fst seq2] in *.
    specialize (IH (fun x Hx => H x (or_intror Hx)) c1 K1). destruct (run_all _ l c1) as [c2 l2]. exact IH. }
  specialize (G (rp_pre p) (fun f Hf => Hr f (or_introl Hf)) c2 K2). destruct (run_all _ (rp_pre p) c2) as [c3 l3]. exact G.
Qed.
End View.
End Whole.
