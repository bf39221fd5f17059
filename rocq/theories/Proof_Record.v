From Verif Require Import Spec_Record Proof_Layout.
From Coq Require Import ZifyBool ZifyNat ZifyN.
Local Open Scope N_scope.

Lemma in_rangeb_spec r l m : in_rangeb r l m = true <-> in_range r l m.
Proof. unfold in_rangeb, in_range. rewrite !andb_true_iff, !N.leb_le, !N.ltb_lt. lia. Qed.

Lemma adapt_fields sep f r : r_mip (adaptRange sep f r) = r_mip r /\ r_levels (adaptRange sep f r) = r_levels r /\
  r_layer (adaptRange sep f r) = r_layer r /\ r_layers (adaptRange sep f r) = r_layers r.
Proof. unfold adaptRange. destruct (andb _ _); cbn; auto. Qed.

Lemma adapt_in_range sep f r l m : in_range (adaptRange sep f r) l m <-> in_range r l m.
Proof. unfold in_range. destruct (adapt_fields sep f r) as (-> & -> & -> & ->). tauto. Qed.

Lemma adapt_valid sep f r : valid_range r -> valid_range (adaptRange sep f r).
Proof. unfold valid_range. destruct (adapt_fields sep f r) as (-> & -> & -> & ->). tauto. Qed.

Lemma adapt_get sep c im vt r : rc_getLayoutState c im vt (adaptRange sep (i_format im) r) = rc_getLayoutState c im vt r.
Proof.
  unfold adaptRange. destruct (andb _ _); [|reflexivity]. unfold rc_getLayoutState. apply aspect_ignored_get.
Qed.
Lemma adapt_set sep c im vt r s : rc_setLayoutState c im vt (adaptRange sep (i_format im) r) s = rc_setLayoutState c im vt r s.
Proof.
  unfold adaptRange. destruct (andb _ _); [|reflexivity]. unfold rc_setLayoutState. f_equal. apply aspect_ignored_set.
Qed.

(* memoryBarrier in terms of known_state *)
Definition needs_barrier (from wanted : lstate) (force : bool) : Prop :=
  force = true \/ ((ls_layout from <> ls_layout wanted \/ ps_stage (ls_state from) <> ps_stage (ls_state wanted)) /\ ls_layout wanted <> L_UNDEFINED).

Lemma barrier_cases sep c im vt r initial wanted force :
  let known := known_state c im vt r initial in
  (needs_barrier known wanted force /\ memoryBarrier sep c im vt r initial wanted force =
     (rc_setLayoutState c im vt r wanted,
      [CImageBarrier (i_id im) (adaptRange sep (i_format im) r) (ps_stage (ls_state known)) (ps_stage (ls_state wanted))
         (ps_access (ls_state known)) (ps_access (ls_state wanted)) (ls_layout known) (ls_layout wanted)]))
  \/ (~ needs_barrier known wanted force /\ memoryBarrier sep c im vt r initial wanted force = (c, [])).
Proof.
  cbv zeta. unfold memoryBarrier. rewrite adapt_get, adapt_set. fold (known_state c im vt r initial).
  set (k := known_state c im vt r initial).
  change (if N.eqb (ls_layout (rc_getLayoutState c im vt r)) L_UNDEFINED then makeLayoutState initial else rc_getLayoutState c im vt r) with k.
  destruct (orb force _) eqn:E; [left|right]; (split; [|reflexivity]); unfold needs_barrier.
  - destruct force; [left; reflexivity|]. cbn in E. right.
    apply andb_prop in E. destruct E as [E1 E2]. apply orb_prop in E1.
    rewrite !negb_true_iff in E1. rewrite negb_true_iff in E2. rewrite !N.eqb_neq in E1. apply N.eqb_neq in E2. tauto.
  - destruct force; [discriminate|]. cbn in E. intros [F|[D U]]; [discriminate|].
    rewrite <- !N.eqb_neq in D. apply N.eqb_neq in U. rewrite U in E. cbn in E. rewrite andb_true_r in E.
    destruct D as [D|D]; rewrite D in E; cbn in E; try discriminate. rewrite orb_true_r in E. discriminate.
Qed.

Lemma set_subresource c im vt r s i layer mip : vt <> VT_3D -> valid_range r ->
  subresource_state (rc_setLayoutState c im vt r s) i layer mip =
  if andb (N.eqb (i_id im) i) (in_rangeb r layer mip) then Some s else subresource_state c i layer mip.
Proof.
  intros Hv Hr. unfold subresource_state, rc_setLayoutState, set_images. cbn [rc_images].
  rewrite set_mfind. rewrite (N.eqb_sym i). destruct (N.eqb_spec (i_id im) i) as [<-|]; cbn [andb]; [|reflexivity].
  rewrite virtual_not3d by assumption.
  destruct (in_rangeb r layer mip) eqn:E.
  - apply add_tracked_in; [apply valid_nowrap; assumption | apply in_rangeb_spec; assumption].
  - rewrite add_tracked_out; [|apply valid_nowrap; assumption | rewrite <- in_rangeb_spec, E; discriminate].
    destruct (mfind (i_id im) (rc_images c)); reflexivity.
Qed.

Lemma real_layout_app l1 l2 i a b : real_layout (l1 ++ l2) i a b =
  match real_layout l2 i a b with Some x => Some x | None => real_layout l1 i a b end.
Proof.
  induction l1 as [|c l1 IH]; cbn. { destruct (real_layout l2 i a b); reflexivity. }
  rewrite IH. destruct (real_layout l2 i a b); reflexivity.
Qed.

(* Invariant: what is tracked is what the recorded barriers did. *)
Definition agrees (c : rctx) (cmds : list cmd) : Prop :=
  forall i layer mip, option_map ls_layout (subresource_state c i layer mip) = real_layout cmds i layer mip.

Lemma run_all_app {A} (f : A -> rctx -> rctx * list cmd) l1 l2 c :
  run_all f (l1 ++ l2) c = run_all f l1 c >>> run_all f l2.
Proof.
  assert (H : forall l c l0, fold_left (fun x a => x >>> f a) l (c, l0) = (c, l0) >>> run_all f l).
  { unfold run_all. induction l as [|x l IH] ; intros c0 l0; cbn [fold_left].
    - cbn. rewrite app_nil_r. reflexivity.
    - cbn [seq2]. destruct (f x c0) as [c1 l1'] eqn:E. rewrite !IH. cbn. destruct (run_all f l c1) as [c2 l2'] eqn:E2.
      unfold run_all in E2. rewrite E2. rewrite app_assoc. reflexivity. }
  unfold run_all at 1. rewrite fold_left_app. fold (run_all f l1 c). destruct (run_all f l1 c) as [c1 l1']. apply H.
Qed.

Lemma run_all_cons {A} (f : A -> rctx -> rctx * list cmd) x l c : run_all f (x :: l) c = f x c >>> run_all f l.
Proof.
  change (x :: l) with ([x] ++ l). rewrite run_all_app. unfold run_all at 1. cbn. destruct (f x c). reflexivity.
Qed.

Lemma agrees_request sep c cmds q c' l : valid_range (q_range q) -> q_type q <> VT_3D -> agrees c cmds ->
  do_request sep c q = (c', l) -> agrees c' (cmds ++ l).
Proof.
  intros Hr Ht Ha E. unfold do_request in E.
  destruct (barrier_cases sep c (q_image q) (q_type q) (q_range q) (q_initial q) (q_wanted q) (q_force q)) as [[_ E']|[_ E']];
    rewrite E' in E; injection E as <- <-.
  - intros i layer mip. rewrite set_subresource by assumption. rewrite real_layout_app. cbn.
    replace (in_rangeb (adaptRange sep (i_format (q_image q)) (q_range q)) layer mip) with (in_rangeb (q_range q) layer mip).
    2:{ unfold in_rangeb. destruct (adapt_fields sep (i_format (q_image q)) (q_range q)) as (-> & -> & -> & ->). reflexivity. }
    destruct (andb _ _); [reflexivity|]. apply Ha.
  - rewrite app_nil_r. exact Ha.
Qed.

Lemma agrees_requests sep qs : forall c cmds c' l,
  (forall q, In q qs -> valid_range (q_range q) /\ q_type q <> VT_3D) -> agrees c cmds ->
  do_requests sep c qs = (c', l) -> agrees c' (cmds ++ l).
Proof.
  induction qs as [|q qs IH]; intros c cmds c' l H Ha E.
  - injection E as <- <-. rewrite app_nil_r. exact Ha.
  - unfold do_requests in E. rewrite run_all_cons in E. destruct (do_request sep c q) as [c1 l1] eqn:E1. cbn in E.
    destruct (run_all _ qs c1) as [c2 l2] eqn:E2. injection E as <- <-. rewrite app_assoc.
    destruct (H q (or_introl eq_refl)) as [Hr Ht].
    apply (IH c1 (cmds ++ l1) c2 l2); auto. { intros; apply H; right; assumption. }
    apply (agrees_request sep c cmds q); auto.
Qed.

Lemma agrees_new : agrees new_rctx [].
Proof. intros i layer mip. reflexivity. Qed.

(* Reading a range all of whose subresources have one layout. *)
Lemma get_layout_uniform c im vt r l : valid_range r -> vt <> VT_3D ->
  (forall layer mip, in_range r layer mip -> option_map ls_layout (subresource_state c (i_id im) layer mip) = Some l) ->
  ls_layout (rc_getLayoutState c im vt r) = l.
Proof.
  intros Hr Ht H. unfold rc_getLayoutState, getLayoutState, subresource_state in *.
  destruct (mfind (i_id im) (rc_images c)) as [m|].
  2:{ specialize (H _ _ (valid_in r Hr)). discriminate. }
  rewrite virtual_not3d by assumption.
  pose proof (get_is_summary m r (valid_nowrap r Hr)) as S. unfold is_summary in S.
  assert (Hl : forall x, In x (tracked_list m r) -> ls_layout x = l).
  { intros x Hx. unfold tracked_list in Hx. apply in_flat_map in Hx. destruct Hx as [[la mi] [Hi Hx]].
    apply in_subresources in Hi. specialize (H _ _ Hi). cbn [fst snd] in Hx. destruct (tracked m la mi); [|destruct Hx].
    destruct Hx as [<-|[]]. cbn in H. congruence. }
  destruct (tracked_list m r) as [|x xs] eqn:E.
  - exfalso. pose proof (valid_in r Hr) as Hi. specialize (H _ _ Hi). destruct (tracked m (r_layer r) (r_mip r)) as [s|] eqn:Et; [|discriminate].
    assert (In s (tracked_list m r)).
    { unfold tracked_list. apply in_flat_map. exists (r_layer r, r_mip r). split; [apply in_subresources; exact Hi|].
      cbn [fst snd]. rewrite Et. left; reflexivity. }
    rewrite E in H0. destruct H0.
  - destruct S as (_ & Hn & _). destruct (filter _ (x :: xs)) as [|y ys] eqn:Ef; [contradiction|].
    assert (In y (filter (fun x0 => N.eqb (ls_layout x0) (ls_layout (getSubresourceRangeLayout m r))) (x :: xs))) by (rewrite Ef; left; reflexivity).
    apply filter_In in H0. destruct H0 as [Hy Ey]. apply N.eqb_eq in Ey. rewrite <- Ey. apply Hl. exact Hy.
Qed.

Lemma get_layout_untracked c im vt r : valid_range r -> vt <> VT_3D ->
  (forall layer mip, in_range r layer mip -> subresource_state c (i_id im) layer mip = None) ->
  ls_layout (rc_getLayoutState c im vt r) = L_UNDEFINED.
Proof.
  intros Hr Ht H. unfold rc_getLayoutState, getLayoutState, subresource_state in *.
  destruct (mfind (i_id im) (rc_images c)) as [m|]; [|reflexivity].
  rewrite virtual_not3d by assumption.
  pose proof (get_is_summary m r (valid_nowrap r Hr)) as S. unfold is_summary in S.
  destruct (tracked_list m r) as [|x xs] eqn:E; [rewrite S; reflexivity|].
  exfalso. assert (In x (tracked_list m r)) as Hx by (rewrite E; left; reflexivity).
  unfold tracked_list in Hx. apply in_flat_map in Hx. destruct Hx as [[la mi] [Hi Hx]]. apply in_subresources in Hi.
  specialize (H _ _ Hi). cbn [fst snd] in Hx. rewrite H in Hx. destruct Hx.
Qed.

Lemma request_old sep c q b : In b (snd (do_request sep c q)) ->
  old_layout b = Some (ls_layout (known_state c (q_image q) (q_type q) (q_range q) (q_initial q))).
Proof.
  unfold do_request.
  destruct (barrier_cases sep c (q_image q) (q_type q) (q_range q) (q_initial q) (q_wanted q) (q_force q)) as [[_ ->]|[_ ->]]; cbn.
  - intros [<-|[]]. reflexivity.
  - intros [].
Qed.

Lemma barrier_source_real sep c cmds q l b :
  valid_range (q_range q) -> q_type q <> VT_3D -> l <> L_UNDEFINED -> agrees c cmds ->
  (forall layer mip, in_range (q_range q) layer mip -> real_layout cmds (i_id (q_image q)) layer mip = Some l) ->
  In b (snd (do_request sep c q)) -> old_layout b = Some l.
Proof.
  intros Hr Ht Hl Ha H Hb. rewrite (request_old _ _ _ _ Hb). f_equal. unfold known_state.
  assert (E : ls_layout (rc_getLayoutState c (q_image q) (q_type q) (q_range q)) = l).
  { apply get_layout_uniform; auto. intros. rewrite Ha. apply H. assumption. }
  rewrite E. destruct (N.eqb_spec l L_UNDEFINED); [contradiction|exact E].
Qed.

Lemma barrier_source_initial sep c cmds q b :
  valid_range (q_range q) -> q_type q <> VT_3D -> agrees c cmds ->
  (forall layer mip, in_range (q_range q) layer mip -> real_layout cmds (i_id (q_image q)) layer mip = None) ->
  In b (snd (do_request sep c q)) -> old_layout b = Some (q_initial q).
Proof.
  intros Hr Ht Ha H Hb. rewrite (request_old _ _ _ _ Hb). f_equal. unfold known_state.
  rewrite get_layout_untracked; auto. intros layer mip Hi. specialize (H _ _ Hi). rewrite <- Ha in H.
  destruct (subresource_state c (i_id (q_image q)) layer mip); [discriminate|reflexivity].
Qed.

(* Partitioned histories: a range is entirely untouched or entirely in one layout. *)
Definition uniform_in (cmds : list cmd) (i : N) (r : srange) : Prop :=
  (forall layer mip, in_range r layer mip -> real_layout cmds i layer mip = None) \/
  (exists l, l <> L_UNDEFINED /\ forall layer mip, in_range r layer mip -> real_layout cmds i layer mip = Some l).

Lemma uniform_step sep c cmds q l0 i r :
  ls_layout (q_wanted q) <> L_UNDEFINED -> valid_range (q_range q) ->
  (i_id (q_image q) = i -> (forall a b, in_range (q_range q) a b <-> in_range r a b) \/ disjoint_ranges (q_range q) r) ->
  uniform_in cmds i r -> snd (do_request sep c q) = l0 -> uniform_in (cmds ++ l0) i r.
Proof.
  intros Hw Hr Hp Hu <-. unfold do_request.
  destruct (barrier_cases sep c (q_image q) (q_type q) (q_range q) (q_initial q) (q_wanted q) (q_force q)) as [[_ ->]|[_ ->]]; cbn [snd].
  2:{ rewrite app_nil_r. exact Hu. }
  assert (R : forall a b, in_rangeb (adaptRange sep (i_format (q_image q)) (q_range q)) a b = in_rangeb (q_range q) a b).
  { intros. unfold in_rangeb. destruct (adapt_fields sep (i_format (q_image q)) (q_range q)) as (-> & -> & -> & ->). reflexivity. }
  assert (F : forall a b, real_layout (cmds ++ [CImageBarrier (i_id (q_image q)) (adaptRange sep (i_format (q_image q)) (q_range q))
      (ps_stage (ls_state (known_state c (q_image q) (q_type q) (q_range q) (q_initial q)))) (ps_stage (ls_state (q_wanted q)))
      (ps_access (ls_state (known_state c (q_image q) (q_type q) (q_range q) (q_initial q)))) (ps_access (ls_state (q_wanted q)))
      (ls_layout (known_state c (q_image q) (q_type q) (q_range q) (q_initial q))) (ls_layout (q_wanted q))]) i a b
      = if andb (N.eqb (i_id (q_image q)) i) (in_rangeb (q_range q) a b) then Some (ls_layout (q_wanted q)) else real_layout cmds i a b).
  { intros. rewrite real_layout_app. cbn. rewrite R. destruct (andb _ _); reflexivity. }
  destruct (N.eqb_spec (i_id (q_image q)) i) as [Ei|Ei].
  - destruct (Hp Ei) as [Same|Disj].
    + right. exists (ls_layout (q_wanted q)). split; [exact Hw|]. intros a b Hin. rewrite F. apply Same in Hin.
      apply in_rangeb_spec in Hin. rewrite Hin. reflexivity.
    + assert (Z : forall a b, in_range r a b -> in_rangeb (q_range q) a b = false).
      { intros a b Hin. destruct (in_rangeb (q_range q) a b) eqn:E; [|reflexivity].
        apply in_rangeb_spec in E. destruct (Disj a b E Hin). }
      destruct Hu as [Hu|(l & Hl & Hu)]; [left|right; exists l; split; [exact Hl|]]; intros a b Hin; rewrite F, (Z a b Hin); cbn; apply Hu; exact Hin.
  - destruct Hu as [Hu|(l & Hl & Hu)]; [left|right; exists l; split; [exact Hl|]]; intros a b Hin; rewrite F; cbn; apply Hu; exact Hin.
Qed.

Lemma uniform_all sep qs : forall c cmds i r,
  (forall q, In q qs -> request_ok q /\ (i_id (q_image q) = i -> (forall a b, in_range (q_range q) a b <-> in_range r a b) \/ disjoint_ranges (q_range q) r)) ->
  uniform_in cmds i r -> uniform_in (cmds ++ snd (do_requests sep c qs)) i r.
Proof.
  induction qs as [|q qs IH]; intros c cmds i r H Hu.
  - cbn. rewrite app_nil_r. exact Hu.
  - unfold do_requests. rewrite run_all_cons. destruct (do_request sep c q) as [c1 l1] eqn:E1. cbn.
    destruct (run_all (fun q0 c0 => do_request sep c0 q0) qs c1) as [c2 l2] eqn:E2. cbn [snd]. rewrite app_assoc.
    assert (E2' : l2 = snd (do_requests sep c1 qs)) by (unfold do_requests; rewrite E2; reflexivity). rewrite E2'.
    destruct (H q (or_introl eq_refl)) as [(Hr & _ & Hw) Hp].
    apply IH. { intros; apply H; right; assumption. }
    apply (uniform_step sep c cmds q); auto. rewrite E1. reflexivity.
Qed.

(* Buffers *)
Lemma buffer_cases c b off size im is wanted force :
  let known := known_access c b im is in
  let needs := force = true \/ ps_access known <> ps_access wanted \/ ps_stage known <> ps_stage wanted in
  (needs /\ bufferBarrier c b off size im is wanted force =
     (set_buffers c (mput b wanted (rc_buffers c)),
      [CBufferBarrier b off size (ps_stage known) (ps_stage wanted) (ps_access known) (ps_access wanted)]))
  \/ (~ needs /\ bufferBarrier c b off size im is wanted force = (c, [])).
Proof.
  cbv zeta. unfold bufferBarrier, getAccessState.
  assert (K : known_access c b im is =
    (if N.eqb (ps_stage match mfind b (rc_buffers c) with Some s => s | None => bottom_state end) S_BOTTOM
     then {| ps_access := im; ps_stage := is |} else match mfind b (rc_buffers c) with Some s => s | None => bottom_state end)).
  { unfold known_access. destruct (mfind b (rc_buffers c)); reflexivity. }
  rewrite <- K. set (k := known_access c b im is).
  destruct (N.eqb_spec (ps_access k) (ps_access wanted)) as [Ea|Ea], (N.eqb_spec (ps_stage k) (ps_stage wanted)) as [Es|Es], force; cbn;
    solve [left; split; [tauto|reflexivity] | right; split; [intuition congruence|reflexivity]].
Qed.

(* Implicit actions *)
Definition queue_of (l : list (N * view * action)) (v : N) : list (N * N) :=
  flat_map (fun x => match x with (p, w, AUser tag) => if N.eqb (v_id w) v then [(p, tag)] else [] | _ => [] end) l.
Arguments queue_of : simpl never.
Lemma queue_cons p w tag l v : queue_of ((p, w, AUser tag) :: l) v = (if N.eqb (v_id w) v then [(p, tag)] else []) ++ queue_of l v.
Proof. reflexivity. Qed.
Definition only_user (l : list (N * view * action)) : Prop := forall x, In x l -> exists tag, snd x = AUser tag.

Lemma take_first_user v l : only_user l ->
  match take_first v l with
  | None => queue_of l v = []
  | Some (p, a, rest) => exists tag, a = AUser tag /\ queue_of l v = (p, tag) :: queue_of rest v /\ only_user rest /\
       (forall w, w <> v -> queue_of l w = queue_of rest w)
  end.
Proof.
  induction l as [|[[p w] a] l IH]; intro H; cbn; [reflexivity|].
  destruct (H _ (or_introl eq_refl)) as [tag Ea]. cbn in Ea. subst a. rewrite queue_cons.
  assert (Hl : only_user l) by (intros x Hx; apply H; right; exact Hx). specialize (IH Hl).
  destruct (N.eqb_spec (v_id w) v) as [Ew|Ew].
  - exists tag. repeat split; auto. intros w0 Hn. rewrite queue_cons. destruct (N.eqb_spec (v_id w) w0); [congruence|reflexivity].
  - destruct (take_first v l) as [[[p' a'] rest]|] eqn:E; [|exact IH].
    destruct IH as (tag' & -> & Hq & Ho & Hw). exists tag'. repeat split; auto.
    + rewrite queue_cons. cbn. rewrite Hq. destruct (N.eqb_spec (v_id w) v); [congruence|reflexivity].
    + intros x [<-|Hx]; [exists tag; reflexivity|apply Ho; exact Hx].
    + intros w0 Hn. rewrite !queue_cons. rewrite (Hw w0 Hn). reflexivity.
Qed.

Lemma queue_app l1 l2 v : queue_of (l1 ++ l2) v = queue_of l1 v ++ queue_of l2 v.
Proof. apply flat_map_app. Qed.

Lemma implicit_refines sep enabled ops : forall c q, only_user (rc_implicit c) ->
  (forall v, queue_of (rc_implicit c) v = q v) ->
  impl_trace (tag_env sep enabled) c ops = map (map CUser) (spec_trace enabled q ops).
Proof.
  induction ops as [|o ops IH]; intros c q Hu Hq; cbn [impl_trace spec_trace map]; [reflexivity|].
  destruct o as [p v tag|v].
  - cbn [impl_step spec_step fst snd map]. f_equal. apply IH.
    + intros x Hx. cbn in Hx. apply in_app_or in Hx. destruct Hx as [Hx|[<-|[]]]; [apply Hu; exact Hx|exists tag; reflexivity].
    + intro w. cbn. rewrite queue_app, Hq, queue_cons. rewrite (N.eqb_sym w). destruct (N.eqb (v_id v) w); cbn; [reflexivity|apply app_nil_r].
  - pose proof (take_first_user (v_id v) (rc_implicit c) Hu) as T.
    assert (Hl : forall x, take_first (v_id v) (rc_implicit c) = Some x -> exists n, length (rc_implicit c) = S n).
    { intros x Hx. destruct (rc_implicit c); [discriminate|]. eexists. reflexivity. }
    cbn [impl_step spec_step]. unfold runImplicit. rewrite <- (Hq (v_id v)).
    destruct (take_first (v_id v) (rc_implicit c)) as [[[p a] rest]|] eqn:E.
    + destruct T as (tag & -> & Hv & Ho & Hw). rewrite Hv. destruct (Hl _ eq_refl) as [n ->].
      cbn [runImplicit_fuel]. rewrite E.
      assert (Next : forall w, queue_of rest w = (if N.eqb w (v_id v) then queue_of rest (v_id v) else q w)).
      { intro w. destruct (N.eqb_spec w (v_id v)) as [->|Hn]; [reflexivity|]. rewrite <- Hw by exact Hn. apply Hq. }
      cbn [tag_env e_enabled e_action]. destruct (enabled p); cbn [fst snd map]; f_equal; apply IH; auto.
    + assert (F : forall n, runImplicit_fuel n (tag_env sep enabled) c 0 v = (c, [])) by (intros [|n]; cbn; rewrite E; reflexivity).
      rewrite F, T. cbn [fst snd map]. f_equal. apply IH; auto.
Qed.

(* Balanced blocks *)
Lemma balanced_nil : balanced []. Proof. intro; reflexivity. Qed.
Lemma nest_app l1 l2 d : nest d (l1 ++ l2) = match nest d l1 with Some d' => nest d' l2 | None => None end.
Proof.
  revert d. induction l1 as [|c l1 IH]; intro d; cbn; [reflexivity|].
  destruct c; try apply IH. destruct d; [reflexivity|apply IH].
Qed.
Lemma balanced_app l1 l2 : balanced l1 -> balanced l2 -> balanced (l1 ++ l2).
Proof. intros H1 H2 d. rewrite nest_app, H1. apply H2. Qed.
Lemma balanced_seq x f : balanced (snd x) -> (forall c, balanced (snd (f c))) -> balanced (snd (x >>> f)).
Proof.
  intros H1 H2. destruct x as [c l]. unfold seq2. specialize (H2 c). destruct (f c) as [c' l']. apply balanced_app; assumption.
Qed.
Lemma balanced_run_all {A} (f : A -> rctx -> rctx * list cmd) l : (forall a, In a l -> forall c, balanced (snd (f a c))) ->
  forall c, balanced (snd (run_all f l c)).
Proof.
  induction l as [|a l IH]; intros H c; [apply balanced_nil|].
  rewrite run_all_cons. apply balanced_seq; [apply H; left; reflexivity|]. apply IH. intros; apply H; right; assumption.
Qed.
Lemma balanced_barrier sep c im vt r i w f : balanced (snd (memoryBarrier sep c im vt r i w f)).
Proof. destruct (barrier_cases sep c im vt r i w f) as [[_ ->]|[_ ->]]; intro d; reflexivity. Qed.
Lemma balanced_bbarrier c b o s i1 i2 w f : balanced (snd (bufferBarrier c b o s i1 i2 w f)).
Proof. destruct (buffer_cases c b o s i1 i2 w f) as [[_ ->]|[_ ->]]; intro d; reflexivity. Qed.
Lemma balanced_final e c v f : balanced (snd (final_barrier e c v f)).
Proof. unfold final_barrier. destruct (N.eqb f L_UNDEFINED); [apply balanced_nil|apply balanced_barrier]. Qed.
Lemma balanced_implicit fuel : forall e c i v, (forall t, balanced_fun (e_action e t)) -> balanced (snd (runImplicit_fuel fuel e c i v)).
Proof.
  induction fuel as [|n IH]; intros e c i v H; cbn [runImplicit_fuel];
    destruct (take_first (v_id v) (rc_implicit c)) as [[[p a] rest]|]; try apply balanced_nil;
    destruct (e_enabled e p); try apply balanced_nil.
  destruct a as [src dst w h final|src dst [sx sy] [sw sh] [dx dy] [dw dh] filter final|views final|tag].
  - repeat apply balanced_seq; [apply IH; exact H| | | |]; intros; try apply balanced_barrier; [intro; reflexivity|apply balanced_final].
  - repeat apply balanced_seq; [apply IH; exact H| | | |]; intros; try apply balanced_barrier; [intro; reflexivity|apply balanced_final].
  - repeat apply balanced_seq; intros; [apply balanced_barrier| |apply balanced_final].
    intro d. cbn [emit snd]. destruct (isColourFormat _); reflexivity.
  - apply H.
Qed.
Lemma balanced_record_image e g p a c : (forall t, balanced_fun (e_action e t)) -> balanced (snd (record_image e g p a c)).
Proof.
  intro H. unfold record_image. apply balanced_seq; [apply balanced_implicit; exact H|]. intro c0.
  destruct (andb _ _); [|apply balanced_nil].
  destruct (if isInput a then _ else _) as [c1 cur]. destruct (isClearableImage a).
  - repeat apply balanced_seq; intros; try apply balanced_barrier. intro d. cbn [emit snd]. destruct (isColourFormat _); reflexivity.
  - apply balanced_barrier.
Qed.
Lemma balanced_record_buffer p a c : balanced (snd (record_buffer p a c)).
Proof.
  unfold record_buffer. destruct (andb _ _); [|apply balanced_nil]. destruct (isClearableBuffer a).
  - repeat apply balanced_seq; intros; try apply balanced_bbarrier. intro; reflexivity.
  - apply balanced_bbarrier.
Qed.

(* The fuel of runImplicit is enough. *)
Lemma take_first_length v l p a rest : take_first v l = Some (p, a, rest) -> length l = S (length rest).
Proof.
  revert p a rest. induction l as [|[[p0 w] a0] l IH]; intros p a rest; cbn; [discriminate|].
  destruct (N.eqb (v_id w) v). { intro E; injection E as <- <- <-. reflexivity. }
  destruct (take_first v l) as [[[p' a'] r']|]; [|discriminate]. intro E; injection E as <- <- <-.
  cbn. f_equal. apply (IH p' a' r'). reflexivity.
Qed.
Lemma fuel_enough e i : forall n m c v, (length (rc_implicit c) <= n)%nat -> (length (rc_implicit c) <= m)%nat ->
  runImplicit_fuel n e c i v = runImplicit_fuel m e c i v.
Proof.
  induction n as [|n IH]; intros m c v Hn Hm.
  - destruct m; [reflexivity|]. cbn. destruct (rc_implicit c); [reflexivity|cbn in Hn; lia].
  - destruct m as [|m]; [destruct (rc_implicit c) eqn:Er; [cbn; rewrite Er; reflexivity | cbn in Hm; lia]|].
    cbn [runImplicit_fuel].
    destruct (take_first (v_id v) (rc_implicit c)) as [[[p a] rest]|] eqn:E; [|reflexivity].
    apply take_first_length in E. destruct (e_enabled e p); [reflexivity|].
    destruct a as [src dst w h final|src dst [sx sy] [sw sh] [dx dy] [dw dh] filter final|views final|tag]; try reflexivity.
    + rewrite (IH m (set_implicit c rest) src); [reflexivity| |]; cbn; lia.
    + rewrite (IH m (set_implicit c rest) src); [reflexivity| |]; cbn; lia.
Qed.
Lemma runImplicit_none e c i v : rc_implicit c = [] -> runImplicit e c i v = (c, []).
Proof. intro H. unfold runImplicit. rewrite H. cbn. rewrite H. reflexivity. Qed.

(* Image attachments are in the needed layout after their transition. *)
Lemma get_set_view c v s : view_ok v -> rc_getLayoutState (rc_setLayoutState c (v_image v) (v_type v) (v_range v) s) (v_image v) (v_type v) (v_range v) = s.
Proof.
  intros [Hr Ht]. unfold rc_getLayoutState, rc_setLayoutState. cbn. apply set_get_not3d; auto. intros ? ? H; exact H.
Qed.

Lemma current_known g c v : view_ok v -> forall c' s, getCurrentLayoutState g c (v_image v) (v_type v) (v_range v) = (c', s) ->
  rc_implicit c' = rc_implicit c /\
  (ls_layout s <> L_UNDEFINED -> rc_getLayoutState c' (v_image v) (v_type v) (v_range v) = s) /\
  (ls_layout s = L_UNDEFINED -> c' = c /\ known_layout c v = L_UNDEFINED) /\
  (forall w, view_ok w -> separate_views v w -> known_layout c' w = known_layout c w).
Proof.
  intros Hv c' s. unfold getCurrentLayoutState.
  assert (Fr : forall st w, view_ok w -> separate_views v w ->
    known_layout (rc_setLayoutState c (v_image v) (v_type v) (v_range v) st) w = known_layout c w).
  { intros st w [Hr Ht] [Hi|Hd]; unfold known_layout, rc_getLayoutState, rc_setLayoutState; cbn.
    - rewrite set_frame_image; auto.
    - destruct Hv as [Hr' Ht']. destruct (N.eq_dec (i_id (v_image v)) (i_id (v_image w))) as [Ei|Ei].
      + replace (getLayoutState (setLayoutState (rc_images c) (v_image v) (v_type v) (v_range v) st) (v_image w) (v_type w) (v_range w))
          with (getLayoutState (setLayoutState (rc_images c) (v_image v) (v_type v) (v_range v) st) (v_image v) (v_type w) (v_range w)).
        2:{ unfold getLayoutState. rewrite Ei, !virtual_not3d by assumption. reflexivity. }
        replace (getLayoutState (rc_images c) (v_image w) (v_type w) (v_range w)) with (getLayoutState (rc_images c) (v_image v) (v_type w) (v_range w)).
        2:{ unfold getLayoutState. rewrite Ei, !virtual_not3d by assumption. reflexivity. }
        apply set_frame_layout; auto. intros a b H1 H2. apply (Hd a b); assumption.
      + rewrite set_frame_image; auto. }
  destruct (N.eqb_spec (ls_layout (rc_getLayoutState c (v_image v) (v_type v) (v_range v))) L_UNDEFINED) as [E0|E0]; cbn [negb].
  2:{ intro E; injection E as <- <-. repeat split; auto; intros; contradiction. }
  destruct (N.eqb_spec (ls_layout (getLayoutState (g_inputs g) (v_image v) (v_type v) (v_range v))) L_UNDEFINED) as [E1|E1]; cbn [negb].
  2:{ intro E; injection E as <- <-. split; [reflexivity|]. split; [intros _; apply get_set_view; exact Hv|]. split; [intros; contradiction|apply Fr]. }
  destruct (N.eqb_spec (ls_layout (rc_getLayoutState (g_final g) (v_image v) (v_type v) (v_range v))) L_UNDEFINED) as [E2|E2]; cbn [negb].
  2:{ intro E; injection E as <- <-. split; [reflexivity|]. split; [intros _; apply get_set_view; exact Hv|]. split; [intros; contradiction|apply Fr]. }
  intro E; injection E as <- <-. repeat split; auto; intros; contradiction.
Qed.

Lemma barrier_view_effect sep c v initial wanted : view_ok v ->
  let x := memoryBarrier_view sep c v initial wanted in
  rc_implicit (fst x) = rc_implicit c /\
  (forall w, view_ok w -> separate_views v w -> known_layout (fst x) w = known_layout c w) /\
  (ls_layout wanted <> L_UNDEFINED -> (known_layout c v <> L_UNDEFINED \/ initial <> ls_layout wanted) -> known_layout (fst x) v = ls_layout wanted).
Proof.
  intro Hv. cbv zeta. unfold memoryBarrier_view.
  destruct (barrier_cases sep c (v_image v) (v_type v) (v_range v) initial wanted false) as [[Hn ->]|[Hn ->]]; cbn [fst].
  - split; [reflexivity|]. split.
    + intros w Hw Hs. destruct Hv as [Hr' Ht']. destruct Hw as [Hr Ht]. unfold known_layout, rc_getLayoutState, rc_setLayoutState; cbn.
      destruct (N.eq_dec (i_id (v_image v)) (i_id (v_image w))) as [Ei|Ei].
      * destruct Hs as [Hs|Hd]; [contradiction|].
        replace (getLayoutState (setLayoutState (rc_images c) (v_image v) (v_type v) (v_range v) wanted) (v_image w) (v_type w) (v_range w))
          with (getLayoutState (setLayoutState (rc_images c) (v_image v) (v_type v) (v_range v) wanted) (v_image v) (v_type w) (v_range w)).
        2:{ unfold getLayoutState. rewrite Ei, !virtual_not3d by assumption. reflexivity. }
        replace (getLayoutState (rc_images c) (v_image w) (v_type w) (v_range w)) with (getLayoutState (rc_images c) (v_image v) (v_type w) (v_range w)).
        2:{ unfold getLayoutState. rewrite Ei, !virtual_not3d by assumption. reflexivity. }
        apply set_frame_layout; auto. intros a b H1 H2. apply (Hd a b); assumption.
      * rewrite set_frame_image; auto.
    + intros _ _. unfold known_layout. rewrite get_set_view by exact Hv. reflexivity.
  - split; [reflexivity|]. split; [reflexivity|]. intros Hw Hk.
    unfold needs_barrier in Hn. unfold known_state in Hn. fold (known_layout c v) in Hn. 
    destruct (N.eqb_spec (known_layout c v) L_UNDEFINED) as [E|E].
    + destruct Hk as [Hk|Hk]; [contradiction|]. exfalso. apply Hn. right. split; [left; exact Hk|exact Hw].
    + destruct (N.eq_dec (known_layout c v) (ls_layout wanted)) as [Eq|Ne]; [exact Eq|].
      exfalso. apply Hn. right. split; [left; exact Ne|exact Hw].
Qed.

Lemma record_image_ready e g p a c : let v := attach_view a (rp_index p) in
  view_ok v -> rc_implicit c = [] ->
  let x := record_image e g p a c in
  rc_implicit (fst x) = [] /\
  (forall w, view_ok w -> separate_views v w -> known_layout (fst x) w = known_layout c w) /\
  (has_transition a = true -> a_getImageLayout a (e_separate e) <> L_UNDEFINED ->
     known_layout (fst x) v = a_getImageLayout a (e_separate e)).
Proof.
  cbv zeta. intros Hv Hi. unfold record_image. rewrite runImplicit_none by exact Hi. cbn [seq2].
  fold (has_transition a). destruct (has_transition a); [|cbn; repeat split; auto; discriminate].
  set (v := attach_view a (rp_index p)) in *. set (needed := makeLayoutState (a_getImageLayout a (e_separate e))).
  assert (C : exists c1 cur, (if isInput a then getCurrentLayoutState g c (v_image v) (v_type v) (v_range v) else (c, makeLayoutState L_UNDEFINED)) = (c1, cur)
     /\ rc_implicit c1 = [] /\ (forall w, view_ok w -> separate_views v w -> known_layout c1 w = known_layout c w)
     /\ (known_layout c1 v <> L_UNDEFINED \/ ls_layout cur = L_UNDEFINED)).
  { destruct (isInput a).
    - destruct (getCurrentLayoutState g c (v_image v) (v_type v) (v_range v)) as [c1 s] eqn:E.
      destruct (current_known g c v Hv c1 s E) as (H1 & H2 & H3 & H4). exists c1, s. split; [reflexivity|]. split; [congruence|]. split; [exact H4|].
      destruct (N.eq_dec (ls_layout s) L_UNDEFINED) as [U|U]; [right; exact U|left]. unfold known_layout. rewrite (H2 U). exact U.
    - exists c, (makeLayoutState L_UNDEFINED). repeat split; auto. }
  destruct C as (c1 & cur & -> & Hi1 & Hf1 & Hk1).
  destruct (isClearableImage a).
  - destruct (barrier_view_effect (e_separate e) c1 v (ls_layout cur) transfer_dst_state Hv) as (A1 & A2 & A3).
    destruct (memoryBarrier_view (e_separate e) c1 v (ls_layout cur) transfer_dst_state) as [c2 l2]. cbn [fst] in *. cbn [seq2 emit].
    destruct (barrier_view_effect (e_separate e) c2 v L_TRANSFER_DST needed Hv) as (B1 & B2 & B3).
    destruct (memoryBarrier_view (e_separate e) c2 v L_TRANSFER_DST needed) as [c3 l3]. cbn [fst] in *.
    split; [congruence|]. split. { intros w Hw Hs. rewrite B2, A2, Hf1; auto. }
    intros _ Hu. rewrite B3; [reflexivity|exact Hu|]. left. rewrite A3; [discriminate|discriminate|].
    destruct Hk1 as [K|K]; [left; exact K|right; rewrite K; discriminate].
  - destruct (barrier_view_effect (e_separate e) c1 v (ls_layout cur) needed Hv) as (A1 & A2 & A3).
    destruct (memoryBarrier_view (e_separate e) c1 v (ls_layout cur) needed) as [c2 l2]. cbn [fst] in *.
    split; [congruence|]. split. { intros w Hw Hs. rewrite A2, Hf1; auto. }
    intros _ Hu. rewrite A3; [reflexivity|exact Hu|]. destruct Hk1 as [K|K]; [left; exact K|right; rewrite K]. intro X. apply Hu. symmetry. exact X.
Qed.

Lemma record_images_ready e g p l : forall c,
  rc_implicit c = [] -> (forall a, In a l -> view_ok (attach_view a (rp_index p))) ->
  pairwise (fun a b => separate_views (attach_view a (rp_index p)) (attach_view b (rp_index p))) l ->
  let c' := fst (run_all (record_image e g p) l c) in
  rc_implicit c' = [] /\
  (forall w, view_ok w -> (forall a, In a l -> separate_views (attach_view a (rp_index p)) w) -> known_layout c' w = known_layout c w) /\
  (forall a, In a l -> has_transition a = true -> a_getImageLayout a (e_separate e) <> L_UNDEFINED ->
     known_layout c' (attach_view a (rp_index p)) = a_getImageLayout a (e_separate e)).
Proof.
  induction l as [|a l IH]; intros c Hi Hv Hp; cbv zeta.
  - cbn. repeat split; auto. intros a [].
  - rewrite run_all_cons. inversion_clear Hp as [|? ? Hx Hl].
    destruct (record_image_ready e g p a c (Hv a (or_introl eq_refl)) Hi) as (A1 & A2 & A3).
    destruct (record_image e g p a c) as [c1 l1]. cbn [fst seq2] in *.
    destruct (IH c1 A1 (fun b Hb => Hv b (or_intror Hb)) Hl) as (B1 & B2 & B3).
    destruct (run_all (record_image e g p) l c1) as [c2 l2]. cbn [fst] in *.
    split; [exact B1|]. split.
    + intros w Hw Hs. rewrite B2; [apply A2|..]; auto. { apply Hs; left; reflexivity. } intros b Hb. apply Hs; right; exact Hb.
    + intros b [<-|Hb] Ht Hu; [|apply B3; auto].
      rewrite B2; [apply A3; auto|apply Hv; left; reflexivity|]. intros b Hb. apply (Hx b Hb).
Qed.

(* Buffers: after the transition of an attachment, its buffer is known in its state. *)
Lemma bbarrier_state c b o s wanted : ps_stage wanted <> S_BOTTOM ->
  let cur := getAccessState c b in
  let c' := fst (bufferBarrier c b o s (ps_access cur) (ps_stage cur) wanted false) in
  mfind b (rc_buffers c') = Some wanted.
Proof.
  intro Hs. cbv zeta. set (cur := getAccessState c b).
  destruct (buffer_cases c b o s (ps_access cur) (ps_stage cur) wanted false) as [[Hn ->]|[Hn ->]]; cbn [fst set_buffers rc_buffers].
  - apply mfind_mput_same.
  - assert (E : known_access c b (ps_access cur) (ps_stage cur) = wanted).
    { destruct (known_access c b (ps_access cur) (ps_stage cur)) as [x y], wanted as [x' y']. cbn in *.
      destruct (N.eq_dec x x') as [->|]; [|exfalso; apply Hn; auto]. destruct (N.eq_dec y y') as [->|]; [reflexivity|exfalso; apply Hn; auto]. }
    unfold known_access in E. subst cur. unfold getAccessState in E. destruct (mfind b (rc_buffers c)) as [[x y]|]; cbn in *.
    + destruct (N.eqb y S_BOTTOM); subst; reflexivity.
    + subst wanted. cbn in Hs. contradiction.
Qed.
