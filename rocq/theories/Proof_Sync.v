(* Proofs about memory dependencies. *)
From Verif Require Import Spec_Sync Proof_Layout Proof_Record Proof_Run2 Proof_Run3 Proof_Device.
Local Open Scope N_scope.

Lemma view_state_known c v : ls_layout (view_state (rc_images c) v) = known_layout c v.
Proof. reflexivity. Qed.
(* Setting the state of a view. *)
Lemma set_state c v w s : view_ok v -> view_ok w ->
  (same_region v w -> view_state (rc_images (rc_setLayoutState c (v_image v) (v_type v) (v_range v) s)) w = s) /\
  (separate_views v w -> known_layout c w <> L_UNDEFINED -> view_state (rc_images (rc_setLayoutState c (v_image v) (v_type v) (v_range v) s)) w = view_state (rc_images c) w) /\
  (separate_views v w -> known_layout c w = L_UNDEFINED -> known_layout (rc_setLayoutState c (v_image v) (v_type v) (v_range v) s) w = L_UNDEFINED).
Proof.
  intros Hv Hw. split; [|split].
  - intro S. unfold view_state. rewrite <- (region_get _ v w) by (try apply Hv; try apply Hw; exact S). apply (get_set_view c v s Hv).
  - intros S K. unfold view_state, rc_setLayoutState. cbn [set_images rc_images].
    destruct (N.eq_dec (i_id (v_image w)) (i_id (v_image v))) as [E|E]; [|apply set_frame_image, E].
    destruct S as [S|S]; [congruence|].
    assert (X : forall h, getLayoutState h (v_image w) (v_type w) (v_range w) = getLayoutState h (v_image v) (v_type w) (v_range w)).
    { intro h. unfold getLayoutState. rewrite E, !virtual_not3d by apply Hw. reflexivity. }
    rewrite !X. apply set_frame_range; try apply Hv; try apply Hw.
    + intros layer mip H1 H2. exact (S layer mip H2 H1).
    + unfold known_layout, rc_getLayoutState in K. rewrite X in K. unfold getLayoutState in K. destruct (mfind (i_id (v_image v)) (rc_images c)) as [m|]; [exists m; reflexivity|]. exfalso. apply K. reflexivity.
  - intros S K. destruct (set_known c v w s Hv Hw) as [_ B]. rewrite B by exact S. exact K.
Qed.

Section Known.
Context (g : rgraph) (w : view) (Hw : view_ok w).
Context (Pi : plain_state (view_state (g_inputs g) w)) (Pf : plain_state (view_state (rc_images (g_final g)) w)).

Definition keeps (c c' : rctx) : Prop := known_layout c w <> L_UNDEFINED -> view_state (rc_images c') w = view_state (rc_images c) w.
Definition plain (c : rctx) : Prop := plain_state (view_state (rc_images c) w).

Lemma set_separate c v s : view_ok v -> separate_views v w -> plain c ->
  plain (rc_setLayoutState c (v_image v) (v_type v) (v_range v) s) /\ keeps c (rc_setLayoutState c (v_image v) (v_type v) (v_range v) s).
Proof.
  intros Hv S P. destruct (set_state c v w s Hv Hw) as (_ & B & C). split; [|intro K; apply B; assumption].
  destruct (N.eq_dec (known_layout c w) L_UNDEFINED) as [E|E]; [left; apply C; assumption|]. unfold plain. rewrite B by assumption. exact P.
Qed.
Lemma keeps_trans c1 c2 c3 : keeps c1 c2 -> keeps c2 c3 -> keeps c1 c3.
Proof. intros A B K. rewrite B, A; [reflexivity|exact K|]. rewrite <- view_state_known, A by exact K. exact K. Qed.
Lemma keeps_refl c : keeps c c. Proof. intro K. reflexivity. Qed.

Lemma plain_current c v c' s : view_ok v -> plain c -> getCurrentLayoutState g c (v_image v) (v_type v) (v_range v) = (c', s) ->
  rc_implicit c' = rc_implicit c /\ (separate_views v w -> plain c' /\ keeps c c') /\
  (same_region v w -> plain c' /\ keeps c c' /\ (known_layout c' w = L_UNDEFINED -> ls_layout s = L_UNDEFINED)).
Proof.
  intros Hv P E. unfold getCurrentLayoutState in E.
  assert (Sm : forall s0, plain_state s0 -> known_layout c v = L_UNDEFINED -> ls_layout s0 <> L_UNDEFINED -> same_region v w ->
     let c0 := rc_setLayoutState c (v_image v) (v_type v) (v_range v) s0 in plain c0 /\ keeps c c0 /\ (known_layout c0 w = L_UNDEFINED -> ls_layout s0 = L_UNDEFINED)).
  { intros s0 P0 K0 N0 R c0. destruct (set_state c v w s0 Hv Hw) as (A & _ & _). unfold plain, c0. rewrite A by exact R. split; [exact P0|]. split.
    - intro K. exfalso. apply K. rewrite <- (region_known c v w Hv Hw R). exact K0.
    - rewrite <- view_state_known, A by exact R. auto. }
  assert (Rg : forall h, same_region v w -> getLayoutState h (v_image v) (v_type v) (v_range v) = view_state h w).
  { intros h R. unfold view_state. apply region_get; [apply Hv|apply Hw|exact R]. }
  destruct (N.eqb_spec (ls_layout (rc_getLayoutState c (v_image v) (v_type v) (v_range v))) L_UNDEFINED) as [E0|E0]; cbn [negb] in E.
  - destruct (N.eqb_spec (ls_layout (getLayoutState (g_inputs g) (v_image v) (v_type v) (v_range v))) L_UNDEFINED) as [E1|E1]; cbn [negb] in E.
    + destruct (N.eqb_spec (ls_layout (rc_getLayoutState (g_final g) (v_image v) (v_type v) (v_range v))) L_UNDEFINED) as [E2|E2]; cbn [negb] in E; injection E as <- <-.
      * split; [reflexivity|]. split; [intros _; split; [exact P|apply keeps_refl]|]. intros R. split; [exact P|]. split; [apply keeps_refl|]. intros _. exact E2.
      * split; [reflexivity|]. split; [intro S; apply set_separate; assumption|]. intro R. apply Sm; try assumption. unfold rc_getLayoutState. rewrite (Rg _ R). exact Pf.
    + injection E as <- <-. split; [reflexivity|]. split; [intro S; apply set_separate; assumption|]. intro R. apply Sm; try assumption. rewrite (Rg _ R). exact Pi.
  - injection E as <- <-. split; [reflexivity|]. split; [intros _; split; [exact P|apply keeps_refl]|]. intros R. split; [exact P|]. split; [apply keeps_refl|].
    intro K. exfalso. apply E0. change (known_layout c v = L_UNDEFINED). rewrite (region_known c v w Hv Hw R). exact K.
Qed.

(* A barrier on a separate view. *)
Lemma barrier_separate sep c v initial wanted : view_ok v -> separate_views v w -> plain c ->
  let x := memoryBarrier_view sep c v initial wanted in plain (fst x) /\ keeps c (fst x) /\ rc_implicit (fst x) = rc_implicit c.
Proof.
  intros Hv S P x. unfold x, memoryBarrier_view.
  destruct (barrier_cases sep c (v_image v) (v_type v) (v_range v) initial wanted false) as [[_ ->]|[_ ->]]; cbn [fst].
  - destruct (set_separate c v wanted Hv S P) as [A B]. split; [exact A|]. split; [exact B|reflexivity].
  - split; [exact P|]. split; [apply keeps_refl|reflexivity].
Qed.
(* A barrier on the view: its state is the one asked for. *)
Lemma barrier_same sep c v initial l : view_ok v -> same_region v w -> plain c -> l <> L_UNDEFINED ->
  (known_layout c w = L_UNDEFINED -> initial <> l) ->
  let x := memoryBarrier_view sep c v initial (makeLayoutState l) in
  view_state (rc_images (fst x)) w = makeLayoutState l /\ rc_implicit (fst x) = rc_implicit c /\
  (known_layout c w <> L_UNDEFINED -> known_layout c w <> l ->
   snd x = [CImageBarrier (i_id (v_image w)) (adaptRange sep (i_format (v_image v)) (v_range v)) (getStageMask (known_layout c w)) (getStageMask l)
              (getAccessMask (known_layout c w)) (getAccessMask l) (known_layout c w) l]).
Proof.
  intros Hv R P Hl Hi x. unfold x, memoryBarrier_view.
  pose proof (region_known c v w Hv Hw R) as K.
  assert (St : known_state c (v_image v) (v_type v) (v_range v) initial =
    if N.eqb (known_layout c w) L_UNDEFINED then makeLayoutState initial else makeLayoutState (known_layout c w)).
  { unfold known_state. fold (known_layout c v). rewrite K. destruct (N.eqb_spec (known_layout c w) L_UNDEFINED) as [E|E]; [reflexivity|].
    unfold rc_getLayoutState. rewrite (region_get _ v w) by (try apply Hv; try apply Hw; exact R). destruct P as [P|P]; [contradiction|exact P]. }
  destruct (barrier_cases sep c (v_image v) (v_type v) (v_range v) initial (makeLayoutState l) false) as [[_ ->]|[Hn ->]]; cbn [fst snd].
  - destruct (set_state c v w (makeLayoutState l) Hv Hw) as (A & _ & _). split; [apply A, R|]. split; [reflexivity|]. intros K0 K1. rewrite St.
    destruct (N.eqb_spec (known_layout c w) L_UNDEFINED); [contradiction|]. destruct R as (Ei & _). rewrite Ei. reflexivity.
  - rewrite St in Hn. destruct (N.eqb_spec (known_layout c w) L_UNDEFINED) as [E|E].
    + exfalso. apply Hn. right. split; [left; exact (Hi E)|exact Hl].
    + destruct (N.eq_dec (known_layout c w) l) as [E1|E1]; [|exfalso; apply Hn; right; split; [left; exact E1|exact Hl]].
      split; [|split; [reflexivity|intros _ C; contradiction]]. destruct P as [P|P]; [contradiction|]. rewrite view_state_known, E1 in P. exact P.
Qed.

(* One image attachment of recordInto. *)
Lemma image_separate e p a c : let v := attach_view a (rp_index p) in view_ok v -> separate_views v w -> rc_implicit c = [] -> plain c ->
  let x := record_image e g p a c in plain (fst x) /\ keeps c (fst x) /\ rc_implicit (fst x) = [].
Proof.
  intros v Hv S I0 P x. unfold x, record_image. rewrite runImplicit_none by exact I0. cbn [seq2]. fold v.
  set (X := if andb _ _ then _ else _). enough (G : plain (fst X) /\ keeps c (fst X) /\ rc_implicit (fst X) = []) by (destruct X; exact G). unfold X. clear X x.
  destruct (andb _ _); [|cbn [fst]; split; [exact P|split; [apply keeps_refl|exact I0]]].
  assert (C : exists c1 cur, (if isInput a then getCurrentLayoutState g c (v_image v) (v_type v) (v_range v) else (c, makeLayoutState L_UNDEFINED)) = (c1, cur) /\ plain c1 /\ keeps c c1 /\ rc_implicit c1 = []).
  { destruct (isInput a); [|exists c, (makeLayoutState L_UNDEFINED); repeat split; auto; apply keeps_refl].
    destruct (getCurrentLayoutState g c (v_image v) (v_type v) (v_range v)) as [c1 s] eqn:E. destruct (plain_current c v c1 s Hv P E) as (A & B & _). exists c1, s. destruct (B S). repeat split; auto. congruence. }
  destruct C as (c1 & cur & E & P1 & K1 & I1). rewrite E. clear E. destruct (isClearableImage a).
  - destruct (barrier_separate (e_separate e) c1 v (ls_layout cur) transfer_dst_state Hv S P1) as (P2 & K2 & I2).
    destruct (memoryBarrier_view (e_separate e) c1 v (ls_layout cur) transfer_dst_state) as [c2 l2]. cbn [seq2 emit fst] in *.
    destruct (barrier_separate (e_separate e) c2 v L_TRANSFER_DST (makeLayoutState (a_getImageLayout a (e_separate e))) Hv S P2) as (P3 & K3 & I3).
    destruct (memoryBarrier_view (e_separate e) c2 v L_TRANSFER_DST _) as [c3 l3]. cbn [seq2 fst] in *.
    split; [exact P3|]. split; [apply (keeps_trans c c2); [apply (keeps_trans c c1); assumption|exact K3]|congruence].
  - destruct (barrier_separate (e_separate e) c1 v (ls_layout cur) (makeLayoutState (a_getImageLayout a (e_separate e))) Hv S P1) as (P2 & K2 & I2).
    split; [exact P2|]. split; [apply (keeps_trans c c1); assumption|congruence].
Qed.
Lemma image_same e p a c : let v := attach_view a (rp_index p) in view_ok v -> same_region v w -> rc_implicit c = [] -> plain c ->
  has_transition a = true -> isClearableImage a = false -> let l := a_getImageLayout a (e_separate e) in l <> L_UNDEFINED ->
  let x := record_image e g p a c in view_state (rc_images (fst x)) w = makeLayoutState l /\ rc_implicit (fst x) = [] /\
  (known_layout c w <> L_UNDEFINED -> known_layout c w <> l ->
   snd x = [CImageBarrier (i_id (v_image w)) (adaptRange (e_separate e) (i_format (v_image v)) (v_range v)) (getStageMask (known_layout c w)) (getStageMask l)
              (getAccessMask (known_layout c w)) (getAccessMask l) (known_layout c w) l]).
Proof.
  intros v Hv R I0 P Ht Hc l Hl x. unfold x, record_image. rewrite runImplicit_none by exact I0. cbn [seq2]. fold v. fold (has_transition a). rewrite Ht, Hc.
  assert (C : exists c1 cur, (if isInput a then getCurrentLayoutState g c (v_image v) (v_type v) (v_range v) else (c, makeLayoutState L_UNDEFINED)) = (c1, cur) /\ plain c1 /\ keeps c c1 /\ rc_implicit c1 = [] /\
     (known_layout c1 w = L_UNDEFINED -> ls_layout cur = L_UNDEFINED)).
  { destruct (isInput a); [|exists c, (makeLayoutState L_UNDEFINED); repeat split; auto; apply keeps_refl].
    destruct (getCurrentLayoutState g c (v_image v) (v_type v) (v_range v)) as [c1 s] eqn:E. destruct (plain_current c v c1 s Hv P E) as (A & _ & B). exists c1, s. destruct (B R) as (B1 & B2 & B3). repeat split; auto. congruence. }
  destruct C as (c1 & cur & E & P1 & K1 & I1 & U1). rewrite E. clear E. fold l.
  destruct (barrier_same (e_separate e) c1 v (ls_layout cur) l Hv R P1 Hl) as (A & B & C); [intro K; rewrite (U1 K); intro Q; apply Hl; symmetry; exact Q|].
  destruct (memoryBarrier_view (e_separate e) c1 v (ls_layout cur) (makeLayoutState l)) as [c2 l2]. cbn [fst snd app] in *. split; [exact A|]. split; [congruence|].
  intros N0 N1. assert (Ek : known_layout c1 w = known_layout c w) by (rewrite <- !view_state_known, (K1 N0); reflexivity). rewrite Ek in C. exact (C N0 N1).
Qed.

(* The attachments of a pass. *)
Definition attach_fits (p : rpass) (a : attach) : Prop := view_ok (attach_view a (rp_index p)).
Lemma images_separate e p l : forall c, (forall a, In a l -> view_ok (attach_view a (rp_index p)) /\ separate_views (attach_view a (rp_index p)) w) -> rc_implicit c = [] -> plain c ->
  let x := run_all (record_image e g p) l c in plain (fst x) /\ keeps c (fst x) /\ rc_implicit (fst x) = [].
Proof.
  induction l as [|a l IH]; intros c H I0 P; cbv zeta; [cbn; split; [exact P|split; [apply keeps_refl|exact I0]]|]. rewrite run_all_cons.
  destruct (H a (or_introl eq_refl)) as [Hv S]. destruct (image_separate e p a c Hv S I0 P) as (P1 & K1 & I1).
  destruct (record_image e g p a c) as [c1 l1]. cbn [seq2 fst] in *. destruct (IH c1 (fun b Hb => H b (or_intror Hb)) I1 P1) as (P2 & K2 & I2).
  destruct (run_all (record_image e g p) l c1) as [c2 l2]. cbn [fst] in *. split; [exact P2|]. split; [apply (keeps_trans c c1); assumption|exact I2].
Qed.
Lemma images_same e p l a : forall c, In a l -> (forall b, In b l -> view_ok (attach_view b (rp_index p))) ->
  pairwise (fun a b => separate_views (attach_view a (rp_index p)) (attach_view b (rp_index p))) l ->
  same_region (attach_view a (rp_index p)) w -> rc_implicit c = [] -> plain c -> has_transition a = true -> isClearableImage a = false ->
  let la := a_getImageLayout a (e_separate e) in la <> L_UNDEFINED ->
  let x := run_all (record_image e g p) l c in view_state (rc_images (fst x)) w = makeLayoutState la /\ rc_implicit (fst x) = [] /\
  (known_layout c w <> L_UNDEFINED -> known_layout c w <> la ->
   In (CImageBarrier (i_id (v_image w)) (adaptRange (e_separate e) (i_format (v_image (attach_view a (rp_index p)))) (v_range (attach_view a (rp_index p)))) (getStageMask (known_layout c w)) (getStageMask la)
              (getAccessMask (known_layout c w)) (getAccessMask la) (known_layout c w) la) (snd x)).
Proof.
  intros c Hin Hv Hp R I0 P Ht Hc la Hl. revert c Hin Hv Hp I0 P.
  assert (Sep : forall b, separate_views (attach_view b (rp_index p)) (attach_view a (rp_index p)) -> separate_views (attach_view b (rp_index p)) w).
  { intros b [H|H]; [left; destruct R as (Ei & _); congruence|right]. intros layer mip H1 H2. apply (H layer mip H1). destruct R as (_ & E1 & E2 & E3 & E4). unfold in_range in *. rewrite E1, E2, E3, E4. exact H2. }
  induction l as [|b l IH]; intros c Hin Hv Hp I0 P; [destruct Hin|]. cbv zeta. rewrite run_all_cons. inversion Hp as [|? ? Hb Hp']; subst.
  destruct Hin as [->|Hin].
  - destruct (image_same e p a c (Hv a (or_introl eq_refl)) R I0 P Ht Hc Hl) as (A & B & C). fold la in A, C.
    destruct (record_image e g p a c) as [c1 l1]. cbn [seq2 fst snd] in *.
    assert (P1 : plain c1) by (unfold plain; rewrite A; right; reflexivity).
    destruct (images_separate e p l c1) as (P2 & K2 & I2); [intros b Hin; split; [apply Hv; right; exact Hin|apply Sep, (Hb b Hin)]|exact B|exact P1|].
    destruct (run_all (record_image e g p) l c1) as [c2 l2]. cbn [fst snd] in *. split; [|split; [exact I2|]].
    + rewrite K2; [exact A|]. rewrite <- view_state_known, A. exact Hl.
    + intros N0 N1. rewrite (C N0 N1). left. reflexivity.
  - destruct (image_separate e p b c (Hv b (or_introl eq_refl)) (Sep b (proj1 (Hb a Hin))) I0 P) as (P1 & K1 & I1).
    destruct (record_image e g p b c) as [c1 l1]. cbn [seq2 fst snd] in *.
    destruct (IH c1 Hin (fun x Hx => Hv x (or_intror Hx)) Hp' I1 P1) as (A & B & C).
    destruct (run_all (record_image e g p) l c1) as [c2 l2]. cbn [fst snd] in *. split; [exact A|]. split; [exact B|].
    intros N0 N1. assert (Ek : known_layout c1 w = known_layout c w) by (rewrite <- !view_state_known, (K1 N0); reflexivity). rewrite Ek in C. apply in_or_app. right. apply (C N0 N1).
Qed.
End Known.
