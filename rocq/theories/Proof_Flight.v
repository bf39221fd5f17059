(* Proofs about the render passes and framebuffers the device may be using. *)
From Verif Require Import Spec_Flight Spec_Sync Proof_Layout Proof_Record Proof_Device Proof_Device2 Proof_Device3 Proof_Sync Proof_Target Proof_Target2 Proof_Target3.
From Coq Require Import PeanoNat Permutation.
Local Open Scope N_scope.

Definition reuses (t : target) (i : nat) (c : rctx) : bool :=
  let d := pass_data t i in
  andb (andb (negb (N.eqb (rd_renderPass d) 0)) (checkAttaches c (rd_entries d) i)) (andb (pstate_eqb (rd_prev d) (rc_prevState c)) (pstate_eqb (rd_next d) (rc_nextState c))).
Definition same_check (d d' : rdata) : Prop := rd_entries d' = rd_entries d /\ rd_prev d' = rd_prev d /\ rd_next d' = rd_next d.

Lemma framebuffer_shape i t : (i < length (tg_passes t))%nat -> rd_renderPass (pass_data t i) <> 0 -> 0 < tg_nexth t ->
  let t' := fst (tg_framebuffer i t) in let d := pass_data t i in let d' := pass_data t' i in
  snd (tg_framebuffer i t) = rd_framebuffer d' /\ rd_renderPass d' = rd_renderPass d /\ rd_framebuffer d' <> 0 /\ (rd_framebuffer d = 0 \/ rd_framebuffer d' = rd_framebuffer d) /\
  same_check d d' /\ (forall j, j <> i -> pass_data t' j = pass_data t j) /\
  exists l, tg_log t' = tg_log t ++ l /\ (forall x, In x l -> destroyed_by x = [] /\ exists h r vs a b n, x = TFramebuffer h r vs a b n).
Proof.
  intros Hi Hr Hn. unfold tg_framebuffer. set (d := pass_data t i) in *. destruct (N.eqb_spec (rd_framebuffer d) 0) as [E|E]; cbn [fst snd].
  - assert (Pd : forall d', pass_data {| tg_size := tg_size t; tg_passes := set_nth i d' (tg_passes t); tg_blend := tg_blend t; tg_layers := tg_layers t; tg_nexth := tg_nexth t + 1; tg_log := tg_log t ++ [TFramebuffer (tg_nexth t) (rd_renderPass d) (map (fun a => attach_view a i) (rd_attachments d)) (fst (rd_area d)) (snd (rd_area d)) (tg_layers t)] |} i = d')
      by (intros d'; unfold pass_data; cbn [tg_passes]; apply nth_set_nth, Hi).
    rewrite Pd. cbn [rd_framebuffer rd_renderPass rd_entries rd_prev rd_next]. split; [reflexivity|]. split; [reflexivity|]. split; [lia|]. split; [left; exact E|].
    split; [split; [|split]; reflexivity|]. split; [intros j Hj; unfold pass_data; cbn [tg_passes]; apply nth_set_other; auto|].
    eexists. split; [reflexivity|]. intros x [<-|[]]. split; [reflexivity|]. do 6 eexists. reflexivity.
  - fold d. split; [reflexivity|]. split; [reflexivity|]. split; [exact E|]. split; [right; reflexivity|]. split; [split; [|split]; reflexivity|]. split; [reflexivity|].
    exists []. split; [rewrite app_nil_r; reflexivity|intros x []].
Qed.

(* What a recording does to the holder. *)
Record recorded (t : target) (u : use) (t' : target) : Prop := {
  re_other : forall j, j <> index_of u -> pass_data t' j = pass_data t j;
  re_check : reuses t (index_of u) (us_ctx u) = true -> same_check (pass_data t (index_of u)) (pass_data t' (index_of u)) /\ incl (live_of (pass_data t (index_of u))) (live_of (pass_data t' (index_of u))) /\ rd_renderPass (pass_data t' (index_of u)) <> 0;
  re_new : reuses t (index_of u) (us_ctx u) = false -> let b := build_targets (us_env u) (us_graph u) (us_pass u) (index_of u) (us_ctx u) in let d' := pass_data t' (index_of u) in
    rd_renderPass d' <> 0 /\ rd_entries d' = rb_entries b /\ rd_prev d' = rc_prevState (us_ctx u) /\ rd_next d' = rc_nextState (us_ctx u);
  re_log : exists l1 l2 a cl, tg_log t' = tg_log t ++ l1 ++ l2 ++ [TBegin (rd_renderPass (pass_data t' (index_of u))) (rd_framebuffer (pass_data t' (index_of u))) a cl; TEnd] /\
    rd_framebuffer (pass_data t' (index_of u)) <> 0 /\ rd_renderPass (pass_data t' (index_of u)) <> 0 /\
    (forall x, In x l2 -> destroyed_by x = [] /\ forall r f a c, x <> TBegin r f a c) /\
    (if reuses t (index_of u) (us_ctx u) then l1 = [] else l1 = cleanup_events (pass_data t (index_of u))) }.
Lemma live_of_two d : rd_renderPass d <> 0 -> rd_framebuffer d <> 0 -> live_of d = [rd_framebuffer d; rd_renderPass d].
Proof. intros A B. apply N.eqb_neq in A, B. unfold live_of. rewrite A, B. reflexivity. Qed.
Lemma use_recorded t u : lives t -> (index_of u < length (tg_passes t))%nat -> recorded t u (use_target t u).
Proof.
  intros L Hi. unfold use_target, tg_record. fold (index_of u). set (i := index_of u) in *. set (c := us_ctx u).
  destruct (lives_init (us_env u) (us_graph u) (us_pass u) i t c L Hi) as (L1 & N1 & R1).
  assert (I1 : exists l, let t1 := fst (fst (tg_initialise (us_env u) (us_graph u) (us_pass u) i t c)) in tg_log t1 = tg_log t ++ (if reuses t i c then [] else cleanup_events (pass_data t i)) ++ l /\
     (forall x, In x l -> destroyed_by x = [] /\ forall r f a c, x <> TBegin r f a c) /\ (forall j, j <> i -> pass_data t1 j = pass_data t j) /\
     (if reuses t i c then t1 = t else rd_entries (pass_data t1 i) = rb_entries (build_targets (us_env u) (us_graph u) (us_pass u) i c) /\ rd_prev (pass_data t1 i) = rc_prevState c /\ rd_next (pass_data t1 i) = rc_nextState c)).
  { unfold tg_initialise. fold (reuses t i c). change (andb _ _) with (reuses t i c). destruct (reuses t i c) eqn:E; cbn [fst].
    - exists []. split; [rewrite !app_nil_r; reflexivity|]. split; [intros x []|]. split; [reflexivity|reflexivity].
    - eexists [_]. split; [cbn [tg_log]; reflexivity|]. split; [intros x [<-|[]]; split; [reflexivity|discriminate]|]. split; [intros j Hj; unfold pass_data; cbn [tg_passes]; apply nth_set_other; auto|].
      unfold pass_data. cbn [tg_passes]. rewrite nth_set_nth by exact Hi. cbn. auto. }
  destruct I1 as (l & I1). destruct (tg_initialise _ _ _ _ _ _) as [[t1 c1] m]. cbn [fst] in L1, N1, R1, I1. cbn zeta in I1. destruct I1 as (Log1 & B1 & O1 & S1).
  destruct (framebuffer_shape i t1 ltac:(rewrite N1; exact Hi) R1 (li_pos _ L1)) as (E2 & R2 & F2 & K2 & C2 & O2 & fl & Log2 & B2).
  unfold tg_begin. destruct (tg_framebuffer i t1) as [t2 fb]. cbn [fst snd] in *. subst fb.
  destruct (us_body u _ i) as [c2 l2]. unfold tg_end. cbn [fst].
  assert (P : forall j a b, pass_data (tg_emit (tg_emit t2 a) b) j = pass_data t2 j) by reflexivity.
  constructor; fold i c; rewrite ?P.
  - intros j Hj. rewrite P, O2, O1 by exact Hj. reflexivity.
  - intros E. rewrite E in S1. subst t1. split; [exact C2|]. split; [|rewrite R2; exact R1]. rewrite (live_of_two (pass_data t2 i)); [|rewrite R2; exact R1|exact F2]. rewrite R2. unfold live_of.
    destruct (N.eqb_spec (rd_framebuffer (pass_data t i)) 0) as [Z|Z]; destruct (N.eqb_spec (rd_renderPass (pass_data t i)) 0) as [Z'|Z']; try contradiction; intros h Hh; cbn in Hh |- *; [tauto|].
    destruct K2 as [K2|K2]; [contradiction|]. rewrite K2. tauto.
  - intros E. rewrite E in S1. destruct S1 as (A1 & A2 & A3). destruct C2 as (C1 & C3 & C4). cbn zeta. rewrite C1, C3, C4. repeat split; try assumption. rewrite R2. exact R1.
  - exists (if reuses t i c then [] else cleanup_events (pass_data t i)), (l ++ fl), (rd_area (pass_data t2 i)), (rd_clear (pass_data t2 i)).
    split; [cbn [tg_emit tg_log]; rewrite Log2, Log1, <- !app_assoc; reflexivity|]. split; [exact F2|]. split; [rewrite R2; exact R1|]. split.
    + intros x Hx. apply in_app_or in Hx. destruct Hx as [Hx|Hx]; [apply B1, Hx|]. destruct (B2 x Hx) as (D & h & r & vs & a & b & n & ->). split; [exact D|discriminate].
    + destruct (reuses t i c); reflexivity.
Qed.

(* The entries of a render pass made for loaded targets are those the context expects. *)
Lemma set_keeps c v w s : view_ok v -> view_ok w -> separate_views v w -> known_layout c w <> L_UNDEFINED ->
  get_view (set_view c v s) w = get_view c w.
Proof. intros Hv Hw S K. destruct (set_state c v w s Hv Hw) as (_ & B & _). exact (B S K). Qed.
Lemma current_keeps g c v w c' s : view_ok v -> view_ok w -> separate_views v w -> known_layout c w <> L_UNDEFINED ->
  getCurrentLayoutState g c (v_image v) (v_type v) (v_range v) = (c', s) -> get_view c' w = get_view c w.
Proof.
  intros Hv Hw S K. unfold getCurrentLayoutState. destruct (negb _); [intros [= <- _]; reflexivity|]. destruct (negb _); [intros [= <- _]; apply (set_keeps c v w); assumption|].
  destruct (negb _); intros [= <- _]; [apply (set_keeps c v w); assumption|reflexivity].
Qed.
Definition expects (c : rctx) (i : nat) (x : entry) : Prop := still_expected (get_view c (resolveView (en_view x) i)) (en_input x).
Lemma expected_refl s : still_expected s s.
Proof. right. auto. Qed.
Lemma build_expects e g p c : loaded_targets p -> forall x, In x (rb_entries (build_targets e g p (rp_index p) c)) -> expects c (rp_index p) x.
Proof.
  intros [Ht Hp]. set (i := rp_index p) in *. unfold build_targets, targets in *.
  set (b0 := {| rb_ctx := c; rb_descs := []; rb_entries := []; rb_clear := []; rb_blend := []; rb_colours := []; rb_depth := (0, 0) |}).
  assert (H0 : forall x, In x (rb_entries b0) -> expects c i x) by (intros x []).
  assert (H1 : forall a, In a (filter isTarget (rp_images p)) -> known_layout c (attach_view a i) <> L_UNDEFINED -> get_view (rb_ctx b0) (attach_view a i) = get_view c (attach_view a i)) by reflexivity.
  clearbody b0. clearbody i. revert b0 H0 H1. induction (rp_images p) as [|a l IH]; intros b H0 H1; [exact H0|]. cbn [fold_left]. cbn [filter] in Ht, Hp, H1.
  unfold target_step at 2. destruct (isTarget a) eqn:T; [|apply IH; assumption].
  destruct (Ht a (or_introl eq_refl)) as (In_a & Ok_a & Src_a). cbn zeta. set (v := attach_view a i) in *. rewrite (resolve_plain v i Src_a). rewrite In_a.
  destruct (getCurrentLayoutState g (rb_ctx b) (v_image v) (v_type v) (v_range v)) as [c1 cur] eqn:E.
  inversion Hp as [|? ? Hx Hp']; subst. unfold addAttach. cbn [with_ctx rb_ctx rb_descs rb_entries rb_clear rb_blend rb_colours rb_depth]. rewrite Src_a. cbn [fold_left].
  set (next := getNextLayoutState e g c1 p v). set (x0 := {| en_view := v; en_input := cur; en_output := next |}).
  assert (X0 : expects c i x0).
  { unfold expects. cbn [x0 en_view en_input]. rewrite (resolve_plain v i Src_a). destruct (N.eq_dec (known_layout c v) L_UNDEFINED) as [K|K]; [left; exact K|].
    specialize (H1 a (or_introl eq_refl) K). fold v in H1. unfold getCurrentLayoutState in E. fold (get_view (rb_ctx b) v) in E.
    assert (K' : ls_layout (get_view (rb_ctx b) v) <> L_UNDEFINED) by (rewrite H1; exact K).
    apply N.eqb_neq in K'. rewrite K' in E. cbn [negb] in E. injection E as _ <-. rewrite H1. apply expected_refl. }
  assert (N0 : forall y, In y (rb_entries b ++ [x0]) -> expects c i y) by (intros y Hy; apply in_app_or in Hy; destruct Hy as [Hy|[<-|[]]]; [apply H0, Hy|exact X0]).
  assert (N1 : forall a', In a' (filter isTarget l) -> known_layout c (attach_view a' i) <> L_UNDEFINED -> get_view (set_view c1 v next) (attach_view a' i) = get_view c (attach_view a' i)).
  { intros a' Ha' K. destruct (Ht a' (or_intror Ha')) as (_ & Ok' & _). destruct (Hx a' Ha') as [Hs _]. rewrite <- (H1 a' (or_intror Ha') K).
    assert (K1 : known_layout (rb_ctx b) (attach_view a' i) <> L_UNDEFINED) by (change (ls_layout (get_view (rb_ctx b) (attach_view a' i)) <> L_UNDEFINED); rewrite (H1 a' (or_intror Ha') K); exact K).
    pose proof (current_keeps g (rb_ctx b) v (attach_view a' i) c1 cur Ok_a Ok' Hs K1 E) as Ek.
    rewrite <- Ek. apply set_keeps; [exact Ok_a|exact Ok'|exact Hs|]. change (ls_layout (get_view c1 (attach_view a' i)) <> L_UNDEFINED). rewrite Ek. exact K1. }
  assert (Ht' : forall a', In a' (filter isTarget l) -> isInput a' = true /\ view_ok (attach_view a' i) /\ v_source (attach_view a' i) = []) by (intros a' Ha'; apply Ht; right; exact Ha').
  specialize (IH Ht' Hp'). destruct (orb _ _); apply IH; assumption.
Qed.
Lemma SE s x : negb (andb (lstate_differs s x) (negb (N.eqb (ls_layout s) L_UNDEFINED))) = true <-> still_expected s x.
Proof. unfold lstate_differs, still_expected. rewrite negb_true_iff, andb_false_iff, orb_false_iff, orb_false_iff, andb_false_iff, !negb_false_iff, !N.eqb_eq. tauto. Qed.
Lemma pstate_refl s : pstate_eqb s s = true.
Proof. unfold pstate_eqb. now rewrite !N.eqb_refl. Qed.
Lemma use_reuses t u : lives t -> (index_of u < length (tg_passes t))%nat -> (reuses t (index_of u) (us_ctx u) = true \/ loaded_targets (us_pass u)) ->
  reuses (use_target t u) (index_of u) (us_ctx u) = true.
Proof.
  intros L Hi H. destruct (use_recorded t u L Hi) as [_ C N _]. destruct (reuses t (index_of u) (us_ctx u)) eqn:E.
  - destruct (C eq_refl) as ((C1 & C2 & C3) & _ & C4). unfold reuses in *. rewrite C1, C2, C3. apply andb_prop in E. destruct E as [E1 E2]. apply andb_prop in E1. destruct E1 as [_ E1].
    apply N.eqb_neq in C4. rewrite C4, E1, E2. reflexivity.
  - destruct H as [H|H]; [discriminate|]. destruct (N eq_refl) as (N1 & N2 & N3 & N4). unfold reuses. apply N.eqb_neq in N1. rewrite N1, N2, N3, N4, !pstate_refl, andb_true_r. cbn [negb andb].
    unfold checkAttaches. apply forallb_forall. intros x Hx. apply SE, (build_expects _ _ _ _ H x Hx).
Qed.

(* ---- the log ---- *)
Lemma flight_app l1 l2 : fold_left fnext (l1 ++ l2) ([], []) = fold_left fnext l2 (in_buffer l1, in_flight l1).
Proof. rewrite fold_left_app. unfold in_buffer, in_flight. now destruct (fold_left fnext l1 ([], [])). Qed.
Lemma events_app l1 l2 : target_events (l1 ++ l2) = target_events l1 ++ target_events l2.
Proof. apply flat_map_app. Qed.
Lemma events_map own l : target_events (map (GTarget own) l) = l.
Proof. unfold target_events. induction l as [|x l IH]; [reflexivity|]. cbn [map flat_map app]. now rewrite IH. Qed.
Lemma safe_snoc log x : flight_safe log -> (forall own y h, x = GTarget own y -> In h (destroyed_by y) -> ~ In h (in_flight log)) ->
  (forall h, x = GSubmit -> In h (in_buffer log) -> In h (made (target_events log)) /\ ~ In h (destroyed (target_events log))) -> flight_safe (log ++ [x]).
Proof.
  intros [A B] Hx Hy. assert (C : forall l1 y l2, log ++ [x] = l1 ++ y :: l2 -> (l1 = log /\ y = x /\ l2 = []) \/ exists l3, log = l1 ++ y :: l3).
  { intros l1 y l2 E. destruct (@exists_last _ (y :: l2) ltac:(discriminate)) as (m & z & Em). rewrite Em, app_assoc in E. apply app_inj_tail in E. destruct E as [E ->].
    destruct m as [|y' m]; cbn in Em; injection Em as -> Em; [left; rewrite app_nil_r in E; subst; auto|right; exists m; exact E]. }
  split.
  - intros l1 own y l2 h E Hh. destruct (C _ _ _ E) as [(-> & <- & _)|(l3 & E')]; [eapply Hx; [reflexivity|exact Hh]|eapply A; eassumption].
  - intros l1 l2 h E Hh. destruct (C _ _ _ E) as [(-> & <- & _)|(l3 & E')]; [apply Hy; [reflexivity|exact Hh]|eapply B; eassumption].
Qed.
(* events that are neither beginnings in the buffer of the graph nor submissions, waits or resets *)
Lemma quiet_flight own l log : (own = false \/ forall x, In x l -> forall r f a c, x <> TBegin r f a c) ->
  in_flight (log ++ map (GTarget own) l) = in_flight log /\ in_buffer (log ++ map (GTarget own) l) = in_buffer log.
Proof.
  intros H. unfold in_flight at 1, in_buffer at 1. rewrite flight_app. revert H. generalize (in_buffer log) (in_flight log). induction l as [|x l IH]; intros a b H; [split; reflexivity|].
  cbn [map fold_left]. replace (fnext (a, b) (GTarget own x)) with (a, b); [apply IH; destruct H as [H|H]; [left; exact H|right; intros y Hy; apply H; right; exact Hy]|].
  destruct own; [|reflexivity]. destruct H as [H|H]; [discriminate|]. specialize (H x (or_introl eq_refl)). destruct x; try reflexivity. exfalso. eapply H. reflexivity.
Qed.
Lemma safe_events own l log : flight_safe log -> (own = false \/ forall x, In x l -> forall r f a c, x <> TBegin r f a c) ->
  (forall x h, In x l -> In h (destroyed_by x) -> ~ In h (in_flight log)) -> flight_safe (log ++ map (GTarget own) l).
Proof.
  intros S H D. induction l as [|x l IH] using rev_ind; [rewrite app_nil_r; exact S|]. rewrite map_app, app_assoc.
  assert (H' : own = false \/ forall x, In x l -> forall r f a c, x <> TBegin r f a c) by (destruct H as [H|H]; [left; exact H|right; intros y Hy; apply H, in_or_app; left; exact Hy]).
  apply safe_snoc; [apply IH; [exact H'|intros y h Hy; apply D, in_or_app; left; exact Hy]| |discriminate].
  intros own' y h [= -> ->] Hh. rewrite (proj1 (quiet_flight own' l log H')). apply (D y h); [apply in_or_app; right; left; reflexivity|exact Hh].
Qed.
Lemma live_of_in t i h : (i < length (tg_passes t))%nat -> In h (live_of (pass_data t i)) -> In h (live t).
Proof. intros Hi Hh. destruct (live_parts (tg_passes t) i new_rdata Hi) as (rest & A & _). apply (Permutation_in _ (Permutation_sym A)), in_or_app. left. exact Hh. Qed.
Lemma live_alive t h : lives t -> In h (live t) -> In h (made (tg_log t)) /\ ~ In h (destroyed (tg_log t)).
Proof.
  intros [LP LN _ _ _] Q. split; [apply (Permutation_in _ (Permutation_sym LP)), in_or_app; right; exact Q|].
  intro Hd. apply (Permutation_NoDup LP) in LN. apply in_split in Hd. destruct Hd as (u' & w & Ew). rewrite Ew, <- app_assoc in LN. cbn [app] in LN.
  apply NoDup_remove_2 in LN. apply LN. apply in_or_app. right. apply in_or_app. right. exact Q.
Qed.
(* handles of different indices are different *)
Lemma live_apart t i j h : lives t -> (i < length (tg_passes t))%nat -> i <> j -> In h (live_of (pass_data t i)) -> In h (live_of (pass_data t j)) -> False.
Proof.
  intros L Hi Hij A B. pose proof (li_nodup _ L) as ND. apply (Permutation_NoDup (li_perm _ L)) in ND.
  assert (NL : NoDup (live t)) by (clear -ND; induction (destroyed (tg_log t)) as [|x l IH]; [exact ND|inversion ND; auto]).
  destruct (live_parts (tg_passes t) i new_rdata Hi) as (rest & P1 & P2). fold (live t) in P1. fold (pass_data t i) in P1. apply (Permutation_NoDup P1) in NL.
  assert (Hr : In h rest).
  { assert (Lj : (j < length (tg_passes t))%nat) by (destruct (Nat.lt_ge_cases j (length (tg_passes t))) as [Lj|Lj]; [exact Lj|unfold pass_data in B; rewrite nth_overflow in B by exact Lj; destruct B]).
    assert (Q : In h (flat_map live_of (set_nth i new_rdata (tg_passes t)))).
    { apply in_flat_map. exists (pass_data t j). split; [|exact B]. unfold pass_data. rewrite <- (nth_set_other (tg_passes t) i j new_rdata new_rdata Hij). apply nth_In. rewrite set_nth_length. exact Lj. }
    apply (Permutation_in _ P2) in Q. exact Q. }
  apply in_split in A. destruct A as (u & w & Ew). rewrite Ew, <- app_assoc in NL. cbn [app] in NL. apply NoDup_remove_2 in NL. apply NL. apply in_or_app. right. apply in_or_app. right. exact Hr.
Qed.
Lemma cleanup_in d x h : In x (cleanup_events d) -> In h (destroyed_by x) -> In h (live_of d).
Proof. intros Hx Hh. rewrite <- (proj1 (cleanup_destroys d)). apply in_flat_map. exists x. auto. Qed.
Lemma cleanup_no_begin d x : In x (cleanup_events d) -> forall r f a c, x <> TBegin r f a c.
Proof. unfold cleanup_events. destruct (N.eqb (rd_framebuffer d) 0), (N.eqb (rd_renderPass d) 0); cbn; intuition; subst; discriminate. Qed.
