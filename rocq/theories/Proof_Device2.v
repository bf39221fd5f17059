(* Render passes on the device. *)
From Verif Require Import Spec_Device Proof_Layout Proof_Record Proof_Run2 Proof_Run3 Proof_Device.
Local Open Scope N_scope.

Lemma resolve_plain v i : v_source v = [] -> resolveView v i = v.
Proof. intro H. unfold resolveView. rewrite H. reflexivity. Qed.

(* The layout of the pass itself is known. *)
Lemma own_not_undefined sep p v s0 : valid_views sep p -> In (v, s0) (declared sep p) ->
  (forall w s, In (w, s) (declared sep p) -> ls_layout s <> L_UNDEFINED) ->
  ls_layout (getLayoutState (pass_layouts sep p) (v_image v) (v_type v) (v_range v)) <> L_UNDEFINED.
Proof.
  intros Vp Hin Hall. destruct (pass_has_image sep p v s0 Vp Hin) as [cur Hcur]. unfold getLayoutState. rewrite Hcur. fold (vrange v).
  assert (T : forall layer mip, tracked cur layer mip = needs sep p (i_id (v_image v)) layer mip).
  { intros. rewrite <- pass_layouts_needs by exact Vp. unfold htracked. rewrite Hcur. reflexivity. }
  assert (Nd : forall k layer mip s, needs sep p k layer mip = Some s -> exists w, In (w, s) (declared sep p)).
  { intros k layer mip s. unfold needs.
    assert (G : forall l acc, (forall s, acc = Some s -> exists w, In (w, s) (declared sep p)) -> (forall x, In x l -> In x (declared sep p)) ->
       fold_left (fun acc vs => if covers (fst vs) k layer mip then Some (snd vs) else acc) l acc = Some s -> exists w, In (w, s) (declared sep p)).
    { induction l as [|[w s1] l IH]; intros acc Ha Hl E; [apply Ha, E|]. cbn [fold_left fst snd] in E. apply (IH (if covers w k layer mip then Some s1 else acc)); [|intros x Hx; apply Hl; right; exact Hx|exact E].
      intros s2 E2. destruct (covers w k layer mip); [|apply Ha, E2]. injection E2 as <-. exists w. apply Hl. left. reflexivity. }
    apply (G _ None); [discriminate|auto]. }
  pose proof (get_is_summary cur (vrange v) (valid_nowrap _ (Vp v s0 Hin))) as Hs. unfold is_summary in Hs.
  destruct (tracked_list cur (vrange v)) as [|x0 l0] eqn:El.
  - exfalso. destruct (declared_needs sep p v s0 (r_layer (vrange v)) (r_mip (vrange v)) Hin) as [s' Hs']; [apply valid_in; apply (Vp v s0 Hin)|].
    assert (X : In s' (tracked_list cur (vrange v))).
    { unfold tracked_list. apply in_flat_map. exists (r_layer (vrange v), r_mip (vrange v)). split; [apply in_subresources, valid_in; apply (Vp v s0 Hin)|]. cbn [fst snd]. rewrite T, Hs'. left. reflexivity. }
    rewrite El in X. destruct X.
  - destruct Hs as (_ & Hsame & _). destruct (filter _ _) as [|z l] eqn:Ef; [congruence|].
    assert (Hz : In z (filter (fun x => N.eqb (ls_layout x) (ls_layout (getSubresourceRangeLayout cur (vrange v)))) (x0 :: l0))) by (rewrite Ef; left; reflexivity).
    apply filter_In in Hz. destruct Hz as [Hz1 Hz2]. apply N.eqb_eq in Hz2. rewrite <- Hz2. rewrite <- El in Hz1.
    unfold tracked_list in Hz1. apply in_flat_map in Hz1. destruct Hz1 as ([l1 m1] & A & B). cbn [fst snd] in B. rewrite T in B.
    destruct (needs sep p (i_id (v_image v)) l1 m1) as [w|] eqn:Et; [|contradiction]. destruct B as [<-|[]].
    destruct (Nd _ _ _ _ Et) as [u Hu]. apply (Hall u w Hu).
Qed.
Lemma next_not_undefined e g c p v s0 : valid_views (e_separate e) p -> In (v, s0) (declared (e_separate e) p) ->
  (forall w s, In (w, s) (declared (e_separate e) p) -> ls_layout s <> L_UNDEFINED) -> ls_layout (getNextLayoutState e g c p v) <> L_UNDEFINED.
Proof.
  intros Vp Hin Hall. unfold getNextLayoutState.
  destruct (N.eqb_spec (ls_layout (getLayoutState (rc_next c) (v_image v) (v_type v) (v_range v))) L_UNDEFINED) as [E|E]; cbn [negb]; [|exact E].
  destruct (N.eqb_spec (ls_layout (getLayoutState (g_outputs g) (v_image v) (v_type v) (v_range v))) L_UNDEFINED) as [E'|E']; cbn [negb]; [|exact E'].
  apply (own_not_undefined _ p v s0); assumption.
Qed.

Section Target.
Context (g : rgraph) (F : view -> Prop) (HF : regions F).

(* Setting the states of separate views. *)
Lemma set_views_frame (l : list (view * lstate)) : (forall x, In x l -> F (fst x)) -> forall c w, F w -> (forall x, In x l -> separate_views (fst x) w) ->
  known_layout (fold_left (fun c x => set_view c (fst x) (snd x)) l c) w = known_layout c w.
Proof.
  induction l as [|[v s] l IH]; intros Hl c w Hw Hs; [reflexivity|]. cbn [fold_left fst snd].
  rewrite IH; [|intros x Hx; apply Hl; right; exact Hx|exact Hw|intros x Hx; apply Hs; right; exact Hx].
  apply (set_known c v w s); [apply (F_ok F HF v), (Hl (v, s)); left; reflexivity|apply (F_ok F HF w), Hw|apply (Hs (v, s)); left; reflexivity].
Qed.
Lemma set_views_known (l : list (view * lstate)) : (forall x, In x l -> F (fst x)) -> pairwise (fun x y => separate_views (fst x) (fst y)) l -> forall c v s, In (v, s) l ->
  known_layout (fold_left (fun c x => set_view c (fst x) (snd x)) l c) v = ls_layout s.
Proof.
  induction l as [|[v0 s0] l IH]; intros Hl Hp c v s Hin; [destruct Hin|]. inversion Hp as [|? ? Hx Hp']; subst. cbn [fold_left fst snd].
  assert (Hl' : forall x, In x l -> F (fst x)) by (intros x H; apply Hl; right; exact H).
  destruct Hin as [E|Hin]; [|apply (IH Hl' Hp' _ v s Hin)]. injection E as -> ->.
  rewrite set_views_frame; [|exact Hl'|apply (Hl (v, s)); left; reflexivity|intros x H; apply (Hx x H)].
  unfold set_view, known_layout. rewrite get_set_view; [reflexivity|apply (F_ok F HF v), (Hl (v, s)); left; reflexivity].
Qed.
Lemma set_views_implicit (l : list (view * lstate)) : forall c, rc_implicit (fold_left (fun c x => set_view c (fst x) (snd x)) l c) = rc_implicit c.
Proof. induction l as [|x l IH]; intro c; [reflexivity|]. cbn [fold_left]. rewrite IH. reflexivity. Qed.
Lemma put_views_frame (l : list (view * N)) : forall d w k, (forall x, In x l -> separate_views (fst x) w) -> view_in d w k ->
  view_in (fold_left (fun d x => put d (i_id (v_image (fst x))) (v_range (fst x)) (snd x)) l d) w k.
Proof.
  induction l as [|x l IH]; intros d w k Hs Hk; [exact Hk|]. cbn [fold_left]. apply IH; [intros y Hy; apply Hs; right; exact Hy|].
  apply put_view_other; [apply Hs; left; reflexivity|exact Hk].
Qed.
Lemma same_refl v : same_region v v. Proof. repeat split. Qed.
Lemma put_views_in (l : list (view * N)) : pairwise (fun x y => separate_views (fst x) (fst y)) l -> forall d v k, In (v, k) l ->
  view_in (fold_left (fun d x => put d (i_id (v_image (fst x))) (v_range (fst x)) (snd x)) l d) v k.
Proof.
  induction l as [|[v0 k0] l IH]; intros Hp d v k Hin; [destruct Hin|]. inversion Hp as [|? ? Hx Hp']; subst. cbn [fold_left fst snd].
  destruct Hin as [E|Hin]; [|apply IH; assumption]. injection E as -> ->. apply put_views_frame; [intros x H; apply (Hx x H)|].
  apply put_view_same, same_refl.
Qed.
Lemma region_view_in d v w k : same_region v w -> view_in d v k -> view_in d w k.
Proof. intros (S0 & S1 & S2 & S3 & S4) H layer mip R. rewrite <- S0. apply H. unfold in_range in *. rewrite S1, S2, S3, S4. exact R. Qed.

(* Changing the states of some separate views and their real layouts keeps the context right. *)
Lemma right_targets c c' d d' (l : list (view * N)) : (forall x, In x l -> F (fst x)) ->
  (forall v k, In (v, k) l -> known_layout c' v = k /\ k <> L_UNDEFINED /\ view_in d' v k) ->
  (forall w, F w -> (forall x, In x l -> separate_views (fst x) w) -> known_layout c' w = known_layout c w /\ forall k, view_in d w k -> view_in d' w k) ->
  right g F c d -> right g F c' d'.
Proof.
  intros Hl Ht Hf R w Hw.
  assert (D : (exists x, In x l /\ same_region (fst x) w) \/ forall x, In x l -> separate_views (fst x) w).
  { clear Ht Hf. induction l as [|x l IH]; [right; intros x []|].
    destruct (proj2 HF (fst x) w (Hl x (or_introl eq_refl)) Hw) as [S|S]; [left; exists x; split; [left; reflexivity|exact S]|].
    destruct (IH (fun y Hy => Hl y (or_intror Hy))) as [(y & Hy & Sy)|A]; [left; exists y; split; [right; exact Hy|exact Sy]|right].
    intros y [<-|Hy]; [exact S|apply A, Hy]. }
  destruct D as [([v k] & Hx & S)|A].
  - cbn [fst] in S. destruct (Ht v k Hx) as (K & U & V). right.
    assert (Kw : known_layout c' w = k) by (rewrite <- (region_known c' v w); [exact K|apply (F_ok F HF), (Hl (v, k)), Hx|apply (F_ok F HF), Hw|exact S]).
    rewrite said_known by congruence. rewrite Kw. apply (region_view_in d' v); assumption.
  - destruct (Hf w Hw A) as [K V]. unfold truthful. rewrite (said_ext g c) by exact K. destruct (R w Hw) as [E|E]; [left; exact E|right; apply V, E].
Qed.

(* The lists filled for a render pass. *)
Definition described (e : env) (index : nat) (c : rctx) (a : attach) (x : entry) : Prop :=
  en_view x = attach_view a index /\ ls_layout (en_output x) <> L_UNDEFINED /\
  ls_layout (en_input x) = (if isInput a then said g c (attach_view a index) else L_UNDEFINED).
Record built (e : env) (index : nat) (c : rctx) (l : list attach) (b : rpbuild) : Prop := {
  bt_entries : Forall2 (described e index c) (filter isTarget l) (rb_entries b);
  bt_frame : forall w, F w -> (forall a, In a l -> isTarget a = true -> separate_views (attach_view a index) w) -> known_layout (rb_ctx b) w = known_layout c w;
  bt_implicit : rc_implicit (rb_ctx b) = rc_implicit c }.
Lemma built_step e p index c l b a : built e index c l b ->
  (isTarget a = true -> F (attach_view a index) /\ (forall x, In x l -> isTarget x = true -> separate_views (attach_view x index) (attach_view a index)) /\
     forall c', ls_layout (getNextLayoutState e g c' p (attach_view a index)) <> L_UNDEFINED) ->
  built e index c (l ++ [a]) (target_step e g p index b a).
Proof.
  intros [B1 B2 B3] H. unfold target_step. destruct (isTarget a) eqn:T.
  2:{ constructor.
      - rewrite filter_app. cbn [filter]. rewrite T, app_nil_r. exact B1.
      - intros w Hw Hs. apply B2; [exact Hw|]. intros x Hx. apply Hs, in_or_app. auto.
      - exact B3. }
  destruct (H eq_refl) as (Fv & Sv & Nx). clear H. set (v := attach_view a index) in *.
  destruct (proj1 HF v Fv) as [Vok Src]. cbn zeta. rewrite (resolve_plain v index Src).
  destruct (getCurrentLayoutState g (rb_ctx b) (v_image v) (v_type v) (v_range v)) as [c1 cur] eqn:E.
  assert (Kv : known_layout (rb_ctx b) v = known_layout c v) by (apply B2; [exact Fv|exact Sv]).
  assert (Cur : ls_layout cur = said g c v).
  { rewrite <- (said_ext g c (rb_ctx b) v Kv). unfold said. rewrite E. reflexivity. }
  destruct (current_known g (rb_ctx b) v Vok c1 cur E) as (I1 & _ & _ & Fr1).
  set (next := getNextLayoutState e g c1 p v). set (from := if isInput a then cur else makeLayoutState L_UNDEFINED).
  unfold addAttach. rewrite Src. cbn [fold_left with_ctx rb_ctx rb_descs rb_entries rb_clear rb_blend rb_colours rb_depth].
  match goal with |- built _ _ _ _ (if _ then with_depth ?b1 _ else with_colour _ _ _) => set (b' := b1) end.
  assert (Bb : built e index c (l ++ [a]) b').
  { constructor.
    - rewrite filter_app. cbn [filter]. rewrite T. apply Forall2_app; [exact B1|]. constructor; [|constructor]. unfold described. cbn [en_view en_input en_output].
      split; [reflexivity|]. split; [apply Nx|]. fold v. unfold from. destruct (isInput a); [exact Cur|reflexivity].
    - intros w Hw Hs. cbn [b' rb_ctx]. assert (Sw : separate_views v w) by (apply Hs; [apply in_or_app; right; left; reflexivity|exact T]).
      unfold set_view. rewrite (proj2 (set_known c1 v w next Vok (F_ok F HF w Hw)) Sw). rewrite (Fr1 w (F_ok F HF w Hw) Sw).
      apply B2; [exact Hw|]. intros x Hx. apply Hs, in_or_app. auto.
    - cbn [b' rb_ctx set_view rc_setLayoutState set_images rc_implicit]. congruence. }
  destruct (orb (isDepthAttach a) (isStencilAttach a)); destruct Bb as [Q1 Q2 Q3]; constructor; assumption.
Qed.
Lemma built_all e p index c : forall l done b, built e index c done b ->
  (forall a, In a l -> isTarget a = true -> F (attach_view a index) /\ forall c', ls_layout (getNextLayoutState e g c' p (attach_view a index)) <> L_UNDEFINED) ->
  (forall x a, In x done -> In a l -> isTarget x = true -> isTarget a = true -> separate_views (attach_view x index) (attach_view a index)) ->
  pairwise (fun a b => separate_views (attach_view a index) (attach_view b index)) (filter isTarget l) ->
  built e index c (done ++ l) (fold_left (target_step e g p index) l b).
Proof.
  induction l as [|a l IH]; intros done b B H D P; [rewrite app_nil_r; exact B|]. cbn [fold_left].
  assert (PP : (isTarget a = true -> forall y, In y l -> isTarget y = true -> separate_views (attach_view a index) (attach_view y index)) /\ pairwise (fun a b => separate_views (attach_view a index) (attach_view b index)) (filter isTarget l)).
  { cbn [filter] in P. destruct (isTarget a); [|split; [discriminate|exact P]]. inversion P as [|? ? Pa P']; subst. split; [|exact P']. intros _ y Hy Ty. apply Pa, filter_In. auto. }
  destruct PP as [Pa P'].
  replace (done ++ a :: l) with ((done ++ [a]) ++ l) by (rewrite <- app_assoc; reflexivity). apply IH.
  - apply built_step; [exact B|]. intro T. destruct (H a (or_introl eq_refl) T) as [X Y]. split; [exact X|]. split; [|exact Y].
    intros x Hx Tx. apply D; [exact Hx|left; reflexivity|exact Tx|exact T].
  - intros x Hx. apply H. right. exact Hx.
  - intros x y Hx Hy Tx Ty. apply in_app_or in Hx. destruct Hx as [Hx|[<-|[]]]; [apply D; [exact Hx|right; exact Hy|exact Tx|exact Ty]|apply (Pa Tx y Hy Ty)].
  - exact P'.
Qed.
End Target.
