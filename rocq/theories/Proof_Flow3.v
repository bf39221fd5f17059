(* Proofs about the contents of a view, continued: render passes and frames. *)
From Verif Require Import Spec_Flow Proof_Layout Proof_Record Proof_Run2 Proof_Run3 Proof_Device Proof_Device2 Proof_Device3 Proof_Device4 Proof_Device6 Proof_Flow Proof_Flow2.
Local Open Scope N_scope.

Lemma forall2_pick {X Y} (R : X -> Y -> Prop) l es : Forall2 R l es -> forall y, In y es -> exists x, In x l /\ R x y.
Proof.
  induction 1 as [|a y l es H0 H IH]; intros z Hz; [destruct Hz|]. destruct Hz as [<-|Hz]; [exists a; split; [left; reflexivity|exact H0]|].
  destruct (IH z Hz) as (x & Hx & Rx). exists x. split; [right; exact Hx|exact Rx].
Qed.
Section Render.
Context (g : rgraph) (F : view -> Prop) (HF : regions F) (e : env) (v : view) (Fv : F v).
Let Hv : view_ok v := F_ok F HF v Fv.

(* Some of the views is the region, or none of them touches it. *)
Lemma pick_region (es : list entry) : (forall x, In x es -> F (en_view x)) -> (exists x, In x es /\ same_region (en_view x) v) \/ forall x, In x es -> separate_views (en_view x) v.
Proof.
  induction es as [|x es IH]; intro H; [right; intros x []|].
  destruct (proj2 HF (en_view x) v (H x (or_introl eq_refl)) Fv) as [S|S]; [left; exists x; split; [left; reflexivity|exact S]|].
  destruct (IH (fun y Hy => H y (or_intror Hy))) as [(y & Hy & Sy)|A]; [left; exists y; split; [right; exact Hy|exact Sy]|right].
  intros y [<-|Hy]; [exact S|apply A, Hy].
Qed.
(* Setting the states of the entries. *)
Lemma set_entries (st : entry -> lstate) i es : (forall x, In x es -> F (en_view x)) ->
  pairwise (fun x y => separate_views (en_view x) (en_view y)) es -> forall c,
  let c' := fold_left (fun c x => set_view c (resolveView (en_view x) i) (st x)) es c in
  rc_implicit c' = rc_implicit c /\
  (forall x, In x es -> same_region (en_view x) v -> known_layout c' v = ls_layout (st x)) /\
  ((forall x, In x es -> separate_views (en_view x) v) -> known_layout c' v = known_layout c v).
Proof.
  intros HE P c.
  assert (Fo : fold_left (fun c x => set_view c (resolveView (en_view x) i) (st x)) es c = fold_left (fun c x => set_view c (fst x) (snd x)) (map (fun x => (en_view x, st x)) es) c).
  { clear P. revert c. induction es as [|x es IH]; intro c; [reflexivity|]. cbn [fold_left map fst snd].
    rewrite (resolve_plain (en_view x) i) by (apply (proj1 HF), HE; left; reflexivity). apply IH. intros y Hy. apply HE. right. exact Hy. }
  cbn zeta. rewrite Fo.
  assert (FE : forall x, In x (map (fun x => (en_view x, st x)) es) -> F (fst x)) by (intros x Hx; apply in_map_iff in Hx; destruct Hx as (z & <- & Hz); apply HE, Hz).
  split; [apply set_views_implicit|]. split.
  - intros x Hx S. rewrite <- (region_known _ (en_view x) v); [|apply (F_ok F HF), HE, Hx|exact Hv|exact S].
    apply (set_views_known F HF); [exact FE| |apply (in_map (fun x => (en_view x, st x))), Hx].
    clear - P. induction P as [|x es H P IH]; cbn; [constructor|]. constructor; [|exact IH]. intros y Hy. apply in_map_iff in Hy. destruct Hy as (z & <- & Hz). cbn [fst]. apply H, Hz.
  - intro S. apply (set_views_frame F HF); [exact FE|exact Fv|]. intros x Hx. apply in_map_iff in Hx. destruct Hx as (z & <- & Hz). apply S, Hz.
Qed.

(* What the holder has after initialise. *)
Definition inputs_load (p : rpass) : Prop :=
  forall a, In a (rp_images p) -> isTarget a = true -> same_region (attach_view a (rp_index p)) v -> isInput a = true /\ loads (attach_view a (rp_index p)) (declared_ops a) /\ stores (attach_view a (rp_index p)) (declared_ops a).
Lemma initialised p t c : target_pass g F e p -> holds F p t ->
  let '(t1, c1, _) := tg_initialise e g p (rp_index p) t c in
  let d := pass_data t1 (rp_index p) in
  (rp_index p < length (tg_passes t1))%nat /\ rd_attachments d = filter isTarget (rp_images p) /\
  Forall2 (fun a x => en_view x = attach_view a (rp_index p) /\ ls_layout (en_output x) <> L_UNDEFINED) (rd_attachments d) (rd_entries d) /\
  rc_implicit c1 = rc_implicit c /\
  ((forall a, In a (rp_images p) -> isTarget a = true -> separate_views (attach_view a (rp_index p)) v) -> known_layout c1 v = known_layout c v) /\
  forall own, aware own g v c -> inputs_load p ->
    (own = true \/ rd_renderPass (pass_data t (rp_index p)) = 0 \/
     forall x, In x (rd_entries (pass_data t (rp_index p))) -> same_region (en_view x) v -> ls_layout (en_input x) <> L_UNDEFINED) ->
    forall x, In x (rd_entries d) -> same_region (en_view x) v -> ls_layout (en_input x) <> L_UNDEFINED.
Proof.
  intros (TF & TS & TN) (Hlen & Hold & Hn). set (i := rp_index p) in *.
  destruct (tg_initialise e g p i t c) as [[t1 c1] made] eqn:E. unfold tg_initialise in E.
  destruct (andb _ _) eqn:Chk.
  - injection E as <- <- <-. cbn zeta. apply andb_prop in Chk. destruct Chk as [Chk _]. apply andb_prop in Chk. destruct Chk as [Cr Ck]. apply negb_true_iff, N.eqb_neq in Cr.
    destruct Hold as [Hold|(Ha & Hes)]; [contradiction|]. fold i in Ha, Hes. split; [exact Hlen|]. split; [exact Ha|]. split; [exact Hes|]. split; [reflexivity|]. split; [reflexivity|].
    intros own A _ O x Hx S. destruct O as [O|[O|O]]; [|contradiction|apply O; assumption].
    unfold aware in A. rewrite O in A.
    assert (Fx : F (en_view x)).
    { destruct (forall2_pick _ _ _ Hes x Hx) as (a & Ia & Ea & _). rewrite Ea. rewrite Ha in Ia. apply filter_In in Ia. apply TF; apply Ia. }
    unfold checkAttaches in Ck. rewrite forallb_forall in Ck. specialize (Ck x Hx). rewrite (resolve_plain (en_view x) i) in Ck by (apply (proj1 HF), Fx).
    cbn zeta in Ck. apply negb_true_iff in Ck. unfold get_view in Ck. fold (known_layout c (en_view x)) in Ck.
    assert (K : known_layout c (en_view x) <> L_UNDEFINED) by (rewrite (region_known c (en_view x) v (F_ok F HF _ Fx) Hv S); exact A).
    assert (NE : N.eqb (known_layout c (en_view x)) L_UNDEFINED = false) by (apply N.eqb_neq, K). rewrite NE in Ck. cbn [negb] in Ck. rewrite andb_true_r in Ck.
    unfold lstate_differs in Ck. apply orb_false_elim in Ck. destruct Ck as [Ck _]. apply negb_false_iff, N.eqb_eq in Ck. fold (known_layout c (en_view x)) in Ck.
    rewrite <- Ck. exact K.
  - injection E as E1 E2 _.
    pose proof (built_all g F HF e p i c (rp_images p) [] {| rb_ctx := c; rb_descs := []; rb_entries := []; rb_clear := []; rb_blend := []; rb_colours := []; rb_depth := (0, 0) |}) as B.
    cbn [app] in B. assert (B' : built g F e i c (rp_images p) (build_targets e g p i c)).
    { apply B; [constructor; [constructor|reflexivity|reflexivity]| |intros x a []|exact TS]. intros a Ha T. split; [apply TF; assumption|apply TN; assumption]. }
    clear B. destruct B' as [Be Bf Bi]. rewrite <- E2. clear E2. set (b := build_targets e g p i c) in *.
    assert (Pd : rd_entries (pass_data t1 i) = rb_entries b /\ rd_attachments (pass_data t1 i) = filter isTarget (rp_images p) /\ length (tg_passes t1) = length (tg_passes t)).
    { rewrite <- E1. unfold pass_data. cbn [tg_passes]. rewrite nth_set_nth by exact Hlen. rewrite set_nth_length. repeat split. }
    destruct Pd as (P1 & P2 & P3). cbn zeta. rewrite P1, P2, P3. split; [exact Hlen|]. split; [reflexivity|]. split.
    { clear - Be. induction Be as [|a x l es H0 H IH]; constructor; [destruct H0 as (A & B & _); auto|exact IH]. }
    split; [exact Bi|]. split; [intro S; apply Bf; [exact Fv|exact S]|].
    intros own A IL _ x Hx S. destruct (forall2_pick _ _ _ Be x Hx) as (a & Ia & Ea & _ & El). apply filter_In in Ia. destruct Ia as [Ia T].
    rewrite Ea in S. destruct (IL a Ia T S) as [In1 _]. rewrite El, In1.
    rewrite (region_said g c (attach_view a i) v (F_ok F HF _ (TF a Ia T)) Hv S). unfold aware in A. destruct own; [rewrite said_known; exact A|exact A].
Qed.

Lemma careful_render own p body t : proper_targets e F p -> holds F p t -> careful_at own g v (rp_index p) body -> inputs_load p ->
  (own = true \/ rd_renderPass (pass_data t (rp_index p)) = 0 \/
   forall x, In x (rd_entries (pass_data t (rp_index p))) -> same_region (en_view x) v -> ls_layout (en_input x) <> L_UNDEFINED) ->
  careful_at own g v (rp_index p) (rp_record (render_pass e g p body t)).
Proof.
  intros Hp Ht Hb IL O c A. cbn [render_pass rp_record]. pose proof (proper_target_pass e g F HF p Hp) as TP. pose proof (initialised p t c TP Ht) as Q. set (i := rp_index p) in *. unfold tg_record.
  destruct (tg_initialise e g p i t c) as [[t1 c1] made]. cbn zeta in Q. destruct Q as (Hlen & Ha & Hes & I1 & Fr & Inp). specialize (Inp own A IL O).
  destruct TP as (TF & TS & _).
  destruct (framebuffer_data i t1 Hlen) as (_ & D2 & D3 & _). unfold tg_begin. destruct (tg_framebuffer i t1) as [t2 fb]. cbn [fst] in D2, D3. cbv beta iota zeta.
  change (pass_data (tg_emit t2 [TBegin (rd_renderPass (pass_data t2 i)) fb (rd_area (pass_data t2 i)) (rd_clear (pass_data t2 i))]) i) with (pass_data t2 i).
  set (es := rd_entries (pass_data t1 i)) in *.
  assert (FE : forall x, In x es -> F (en_view x)).
  { intros x Hx. destruct (forall2_pick _ _ _ Hes x Hx) as (a & Ia & Ea & _). rewrite Ea. rewrite Ha in Ia. apply filter_In in Ia. apply TF; apply Ia. }
  assert (SE : pairwise (fun x y => separate_views (en_view x) (en_view y)) es).
  { pose proof TS as P. rewrite <- Ha in P. clear - Hes P. revert P. induction Hes as [|a x l' es' H0 H IH]; intro P; [constructor|]. inversion P as [|? ? Pa P']; subst. constructor; [|apply IH, P'].
    intros y Hy. destruct (forall2_pick _ _ _ H y Hy) as (b & Ib & Eb & _). rewrite (proj1 H0), Eb. apply (Pa b Ib). }
  destruct (set_entries en_input i es FE SE c1) as (J1 & J2 & J3). set (c2 := fold_left _ es c1) in *.
  assert (A2 : aware own g v c2).
  { destruct (pick_region es FE) as [(x & Hx & S)|S].
    - apply aware_known. rewrite (J2 x Hx S). apply Inp; assumption.
    - apply (aware_ext own g v c); [|exact A]. rewrite (J3 S). apply Fr. intros a Ia T.
      assert (exists x, In x es /\ en_view x = attach_view a i) as (x & Hx & Ex).
      { assert (Ia' : In a (rd_attachments (pass_data t1 i))) by (rewrite Ha; apply filter_In; auto). clear - Hes Ia'. induction Hes as [|b y l' es' H0 H IH]; [destruct Ia'|]. destruct Ia' as [->|Ia']; [exists y; split; [left; reflexivity|apply H0]|].
        destruct (IH Ia') as (z & Hz & E). exists z. split; [right; exact Hz|exact E]. }
      rewrite <- Ex. apply S, Hx. }
  destruct (Hb c2 A2) as (B1 & B2 & B3). destruct (body c2 i) as [c3 lb]. cbn [fst snd] in *. unfold tg_end.
  change (pass_data (tg_emit t2 [TBegin (rd_renderPass (pass_data t2 i)) fb (rd_area (pass_data t2 i)) (rd_clear (pass_data t2 i))]) i) with (pass_data t2 i). rewrite D2. fold es.
  destruct (set_entries en_output i es FE SE c3) as (L1 & L2 & L3). cbn [fst snd]. split; [|split].
  - assert (Each : forall w ini fin o, In (w, ini, fin, o) (begun (pass_data t2 i)) ->
      elsewhere (i_id (v_image w)) (v_range w) v \/ (ini <> L_UNDEFINED /\ loads w o /\ stores w o)).
    { intros w ini fin lo H.
    unfold begun in H. rewrite D2, D3 in H. fold es in H. apply in_map_iff in H. destruct H as ([x a] & E & Hxa). cbn [fst snd] in E. injection E as <- <- <- <-.
    pose proof (combine_entries _ _ _ Hes x a Hxa) as [Ev _]. assert (Hx : In x es) by (apply in_combine_l in Hxa; exact Hxa).
    assert (Ia : In a (filter isTarget (rp_images p))) by (rewrite <- Ha; apply in_combine_r in Hxa; exact Hxa). apply filter_In in Ia. destruct Ia as [Ia T].
    destruct (proj2 HF (en_view x) v (FE x Hx) Fv) as [S|S]; [right|left; apply elsewhere_self, S].
    pose proof (Inp x Hx S) as N1. split; [exact N1|]. unfold described_ops. destruct (N.eqb_spec (ls_layout (en_input x)) L_UNDEFINED) as [Z|_]; [contradiction|]. rewrite Ev in *. apply (IL a Ia T S). }
    constructor; [|apply Forall_app; split; [exact B1|constructor; [|constructor]]]; cbn [preserves]; intros w ini fin o H; destruct (Each w ini fin o H) as [El|(N1 & Ld & St)]; auto.
  - destruct (pick_region es FE) as [(x & Hx & S)|S].
    + apply aware_known. rewrite (L2 x Hx S). destruct (forall2_pick _ _ _ Hes x Hx) as (a & _ & _ & Eo). exact Eo.
    + apply (aware_ext own g v c3); [apply L3, S|exact B2].
  - rewrite L1. refine (incl_tran B3 _). rewrite J1, I1. apply incl_refl.
Qed.
(* What is in the targets at the end of a render pass is stored when they were declared so. *)
Lemma stored_render p body t c : proper_targets e F p -> holds F p t ->
  (forall a, In a (rp_images p) -> isTarget a = true -> same_region (attach_view a (rp_index p)) v -> stores (attach_view a (rp_index p)) (declared_ops a)) ->
  exists infos lb, snd (rp_record (render_pass e g p body t) c (rp_index p)) = CBeginRenderPass infos :: lb ++ [CEndRenderPass infos] /\
    preserves v (CEndRenderPass infos) /\ map (fun x => fst (fst (fst x))) infos = map (fun a => attach_view a (rp_index p)) (filter isTarget (rp_images p)).
Proof.
  intros Hp Ht IL. cbn [render_pass rp_record]. pose proof (proper_target_pass e g F HF p Hp) as TP. pose proof (initialised p t c TP Ht) as Q. set (i := rp_index p) in *. unfold tg_record.
  destruct (tg_initialise e g p i t c) as [[t1 c1] made]. cbn zeta in Q. destruct Q as (Hlen & Ha & Hes & _).
  destruct TP as (TF & TS & _).
  destruct (framebuffer_data i t1 Hlen) as (_ & D2 & D3 & _). unfold tg_begin. destruct (tg_framebuffer i t1) as [t2 fb]. cbn [fst] in D2, D3. cbv beta iota zeta.
  match goal with |- context [body ?x i] => destruct (body x i) as [c3 lb] end. unfold tg_end.
  change (pass_data (tg_emit t2 [TBegin (rd_renderPass (pass_data t2 i)) fb (rd_area (pass_data t2 i)) (rd_clear (pass_data t2 i))]) i) with (pass_data t2 i).
  exists (begun (pass_data t2 i)), lb. split; [reflexivity|]. unfold begun. rewrite D2, D3. set (es := rd_entries (pass_data t1 i)) in *. split.
  - cbn [preserves]. intros w ini fin o H. apply in_map_iff in H. destruct H as ([x a] & E & Hxa). cbn [fst snd] in E. injection E as <- <- <- <-.
    pose proof (combine_entries _ _ _ Hes x a Hxa) as [Ev _]. assert (Hx : In x es) by (apply in_combine_l in Hxa; exact Hxa).
    assert (Ia : In a (filter isTarget (rp_images p))) by (rewrite <- Ha; apply in_combine_r in Hxa; exact Hxa). apply filter_In in Ia. destruct Ia as [Ia T].
    assert (Fx : F (en_view x)) by (rewrite Ev; apply TF; assumption).
    destruct (proj2 HF (en_view x) v Fx Fv) as [S|S]; [right|left; apply elsewhere_self, S]. rewrite Ev in *. apply (IL a Ia T S).
  - rewrite <- Ha. clear - Hes. induction Hes as [|a x l' es' H0 H IH]; [reflexivity|]. cbn [combine map fst snd]. rewrite (proj1 H0). f_equal. exact IH.
Qed.
(* A render pass tells the layout of its targets. *)
Lemma tells_render p body t a : proper_targets e F p -> holds F p t -> In a (rp_images p) -> isTarget a = true -> same_region (attach_view a (rp_index p)) v ->
  tells v (render_pass e g p body t).
Proof.
  intros Hp Ht Ia T S c. cbn [render_pass rp_record rp_index]. pose proof (proper_target_pass e g F HF p Hp) as TP. pose proof (initialised p t c TP Ht) as Q. set (i := rp_index p) in *. unfold tg_record.
  destruct (tg_initialise e g p i t c) as [[t1 c1] made]. cbn zeta in Q. destruct Q as (Hlen & Ha & Hes & _).
  destruct TP as (TF & TS & _).
  destruct (framebuffer_data i t1 Hlen) as (_ & D2 & D3 & _). unfold tg_begin. destruct (tg_framebuffer i t1) as [t2 fb]. cbn [fst] in D2, D3. cbv beta iota zeta.
  match goal with |- context [body ?x i] => destruct (body x i) as [c3 lb] end. unfold tg_end.
  change (pass_data (tg_emit t2 [TBegin (rd_renderPass (pass_data t2 i)) fb (rd_area (pass_data t2 i)) (rd_clear (pass_data t2 i))]) i) with (pass_data t2 i). rewrite D2.
  set (es := rd_entries (pass_data t1 i)) in *.
  assert (FE : forall x, In x es -> F (en_view x)).
  { intros x Hx. destruct (forall2_pick _ _ _ Hes x Hx) as (b & Ib & Eb & _). rewrite Eb. rewrite Ha in Ib. apply filter_In in Ib. apply TF; apply Ib. }
  assert (SE : pairwise (fun x y => separate_views (en_view x) (en_view y)) es).
  { pose proof TS as P. rewrite <- Ha in P. clear - Hes P. revert P. induction Hes as [|b x l' es' H0 H IH]; intro P; [constructor|]. inversion P as [|? ? Pa P']; subst. constructor; [|apply IH, P'].
    intros y Hy. destruct (forall2_pick _ _ _ H y Hy) as (b' & Ib & Eb & _). rewrite (proj1 H0), Eb. apply (Pa b' Ib). }
  destruct (set_entries en_output i es FE SE c3) as (_ & L2 & _). cbn [fst].
  assert (exists x, In x es /\ en_view x = attach_view a i /\ ls_layout (en_output x) <> L_UNDEFINED) as (x & Hx & Ex & Eo).
  { assert (Ia' : In a (rd_attachments (pass_data t1 i))) by (rewrite Ha; apply filter_In; auto). clear - Hes Ia'. induction Hes as [|b y l' es' H0 H IH]; [destruct Ia'|]. destruct Ia' as [->|Ia']; [exists y; split; [left; reflexivity|apply H0]|].
    destruct (IH Ia') as (z & Hz & E). exists z. split; [right; exact Hz|exact E]. }
  rewrite (L2 x Hx); [exact Eo|]. rewrite Ex. exact S.
Qed.
End Render.

(* Recordings. *)
Lemma start_registered e deps passes all : registered all (start_context e deps passes).
Proof.
  assert (E : rc_implicit (start_context e deps passes) = []).
  { unfold start_context. assert (G : forall l c, rc_implicit (fold_left rc_addStates l c) = rc_implicit c) by (induction l as [|d l IH]; intro c; [reflexivity|cbn [fold_left]; rewrite IH; reflexivity]).
    destruct passes; cbn; rewrite G; reflexivity. }
  intros p w a H. rewrite E in H. destruct H.
Qed.
Lemma record_loop_graph e g deps passes : record_graph e g deps passes =
  let x := record_loop e g passes (start_context e deps passes) in
  ({| g_inputs := g_inputs g; g_outputs := g_outputs g; g_final := fst (fst x) |}, snd (fst x), snd x).
Proof. unfold record_graph. destruct (record_loop e g passes (start_context e deps passes)) as [[c l] tr]. reflexivity. Qed.

Section Frame.
Context (e : env) (g : rgraph) (v : view) (Hv : view_ok v) (Qe : quiet_env e).
(* The passes after one that establishes the view. *)
Lemma flows_after all l0 p l1 c : careful_actions true e g v (p :: l1) all -> incl (l0 ++ p :: l1) all -> (forall r, In r (l0 ++ p :: l1) -> quiet_pass r) ->
  e_enabled e (rp_id p) = true -> establishes e v p -> (forall f, In f (rp_post p) -> careful_at true g v (rp_index p) f) -> registered all c ->
  exists before cp between c', snd (fst (record_loop e g (l0 ++ p :: l1) c)) = before ++ snd (rp_record p cp (rp_index p)) ++ between ++ snd (fst (record_loop e g l1 c')) /\
    fst (fst (record_loop e g (l0 ++ p :: l1) c)) = fst (fst (record_loop e g l1 c')) /\
    Forall (preserves v) between /\ aware true g v c' /\ registered all c'.
Proof.
  intros Ha Hi Q En Es Hpost R.
  destruct (reach_pass e g Qe all l0 (p :: l1) c) as (b & c0 & E & E' & R0); [intros x Hx; apply Hi, in_or_app; left; exact Hx|intros x Hx; apply Q, in_or_app; left; exact Hx|exact R|].
  rewrite E, E'. cbn [record_loop]. set (c1 := prepare e g p l1 c0). assert (R1 : registered all c1) by (apply registered_prepare, R0).
  assert (Hp : In p all) by (apply Hi, in_or_app; right; left; reflexivity). assert (Qp : quiet_pass p) by (apply Q, in_or_app; right; left; reflexivity).
  pose proof (established e g Qe v Hv (p :: l1) all p c1 Ha (or_introl eq_refl) En Es Qp R1) as K.
  pose proof (registered_into e g Qe all p c1 Hp Qp R1) as R2.
  rewrite (into_opening e g p c1 En) in *. set (o := opening e g p c1) in *. set (bd := rp_record p (fst o) (rp_index p)) in *. cbn [fst] in R2.
  destruct (flows_closing true g v p (fst bd) Hpost K) as (C1 & C2 & _).
  set (cf := register_all p (fst (closing p (fst bd)))) in *. set (x := record_loop e g l1 cf). destruct x as [[c3 l3] tr] eqn:Ex. cbn [fst snd].
  exists (b ++ snd o), (fst o), (snd (closing p (fst bd))), cf. unfold x in Ex. rewrite Ex. cbn [fst snd]. split; [rewrite <- !app_assoc; reflexivity|]. split; [reflexivity|]. split; [exact C1|]. split; [|exact R2].
  apply (aware_ext true g v _ _ (register_known p _ v)). exact C2.
Qed.
Lemma flows_whole own all passes c : careful_actions own e g v passes all -> incl passes all -> (forall p, In p passes -> quiet_pass p) ->
  (forall p, In p passes -> e_enabled e (rp_id p) = true -> careful_pass own g v p) -> registered all c -> aware own g v c ->
  Forall (preserves v) (snd (fst (record_loop e g passes c))) /\ aware own g v (fst (fst (record_loop e g passes c))).
Proof.
  intros Ha Hi Q Hc R A. destruct (flows_prefix e g Qe v Hv own passes all passes Ha [] c (incl_refl _) Hi Q Hc R A) as (b & c' & E & E' & _ & P & A').
  rewrite app_nil_r in *. cbn [record_loop fst snd] in *. rewrite E, E', app_nil_r. auto.
Qed.
End Frame.

Lemma frame_flows v f g : view_ok v -> frame_careful g v f -> said g (start_context (fr_env f) (fr_deps f) (fr_passes f)) v <> L_UNDEFINED ->
  let '(g', cmds, _) := record_graph (fr_env f) g (fr_deps f) (fr_passes f) in
  Forall (preserves v) cmds /\ (input_layout g' v <> L_UNDEFINED \/ known_layout (g_final g') v <> L_UNDEFINED).
Proof.
  intros Hv H A. rewrite record_loop_graph. destruct f as [e deps passes st]. unfold frame_careful in H. cbn [fr_env fr_deps fr_passes] in *.
  destruct H as (Qe & Q & Hc & Ha & Hb & Hu). cbn zeta. cbn [g_final].
  destruct (flows_whole e g v Hv Qe false passes passes (start_context e deps passes) Hb (incl_refl _) Q (fun p Hp En => proj2 (Hc p Hp En)) (start_registered e deps passes passes) A) as [P _].
  split; [exact P|]. destruct Hu as [Hu|(p & Hp & En & Es)]; [left; exact Hu|right].
  destruct (in_split p passes Hp) as (l0 & l1 & El). subst passes.
  assert (I1 : incl (p :: l1) (l0 ++ p :: l1)) by (intros x Hx; apply in_or_app; right; exact Hx).
  destruct (flows_after e g v Hv Qe (l0 ++ p :: l1) l0 p l1 (start_context e deps (l0 ++ p :: l1))) as (b & cp & bt & c' & _ & E' & _ & A' & R'); try assumption.
  - intros x y w a Hx. apply Ha, I1, Hx.
  - apply incl_refl.
  - apply (Hc p Hp En).
  - apply start_registered.
  - rewrite E'. apply (flows_whole e g v Hv Qe true (l0 ++ p :: l1) l1 c'); try assumption.
    + intros x y w a Hx. apply Ha, I1. right. exact Hx.
    + intros x Hx. apply I1. right. exact Hx.
    + intros x Hx. apply Q, I1. right. exact Hx.
    + intros x Hx En'. apply (Hc x); [apply I1; right; exact Hx|exact En'].
Qed.

(* The copies. *)
Lemma sub_layers_in w : view_ok w -> forall layer mip, in_range (sub_layers (v_range w)) layer mip -> in_range (v_range w) layer mip.
Proof. intros [(A & B & _) _] layer mip. unfold in_range, sub_layers. cbn. lia. Qed.
Lemma flows_copies own e g v : view_ok v -> forall size final views, (forall n w, nth_error views n = Some w -> Nat.even n = false -> view_ok w /\ separate_views w v) ->
  forall c, aware own g v c -> flows own g v c (image_copies e size final views c).
Proof.
  intros Hv size final. fix IH 1. intros [|src [|dst rest]] H c A; [apply flows_ret, A|apply flows_ret, A|]. cbn [image_copies].
  destruct (H 1%nat dst eq_refl eq_refl) as [Hd Sd].
  apply flows_seq; [apply flows_seq|].
  - apply flows_emit; [exact A|]. constructor; [|constructor]. cbn [preserves]. apply elsewhere_sub; [exact Sd|apply sub_layers_in, Hd].
  - intros A1 _. apply flows_final; assumption.
  - intros A1 _. apply IH; [|exact A1]. intros n w Hn En. apply (H (Datatypes.S (Datatypes.S n)) w Hn). exact En.
Qed.
Lemma copies_kept e size final : forall n views c src dst, (forall w, In w views -> view_ok w) -> pairwise separate_views views ->
  nth_error views (2 * n) = Some src -> nth_error views (2 * n + 1) = Some dst -> known_layout c dst <> L_UNDEFINED ->
  exists l1 l2, snd (image_copies e size final views c) =
    l1 ++ CCopyRegion (i_id (v_image src)) L_TRANSFER_SRC (i_id (v_image dst)) L_TRANSFER_DST (sub_layers (v_range src)) (sub_layers (v_range dst)) (0, 0, 0) (0, 0, 0) size :: l2 /\
    Forall (preserves dst) l2.
Proof.
  set (g := {| g_inputs := []; g_outputs := []; g_final := new_rctx |}).
  induction n as [|n IH]; intros views c src dst Hok P Es Ed K.
  - destruct views as [|s [|d rest]]; try discriminate. injection Es as ->. injection Ed as ->. cbn [image_copies seq2].
    inversion P as [|? ? _ P1]; subst. inversion P1 as [|? ? Pd P2]; subst.
    pose proof (Hok dst (or_intror (or_introl eq_refl))) as Hd.
    assert (F1 : flows true g dst c (final_barrier e c dst final)).
    { unfold final_barrier. destruct (N.eqb final L_UNDEFINED); [apply flows_ret, K|]. apply flows_barrier_to; [exact Hd|split; [exact Hd|left; repeat split]|left; reflexivity|exact K]. }
    destruct F1 as (A & B & _). destruct (final_barrier e c dst final) as [c1 l1]. cbn [fst snd seq2] in *.
    assert (F2 : flows true g dst c1 (image_copies e size final rest c1)).
    { apply flows_copies; [exact Hd| |exact B]. intros k w Hk _. apply nth_error_In in Hk. split; [apply Hok; right; right; exact Hk|]. apply Pd, Hk. }
    destruct F2 as (A2 & _). destruct (image_copies e size final rest c1) as [c2 l2]. cbn [fst snd] in *. exists [], (l1 ++ l2). split; [reflexivity|apply Forall_app; auto].
  - replace (2 * Datatypes.S n)%nat with (Datatypes.S (Datatypes.S (2 * n))) in * by lia.
    destruct views as [|s [|d rest]]; [discriminate Es| |]. { cbn [nth_error] in Es. destruct (2 * n)%nat; discriminate Es. }
    cbn [nth_error PeanoNat.Nat.add] in Es, Ed.
    inversion P as [|? ? _ P1]; subst. inversion P1 as [|? ? Pd P2]; subst. cbn [image_copies seq2].
    pose proof (Hok d (or_intror (or_introl eq_refl))) as Hd. pose proof (nth_error_In _ _ Ed) as Hin.
    assert (F1 : flows true g dst c (final_barrier e c d final)) by (apply flows_final; [apply Hok; right; right; exact Hin|exact Hd|apply Pd, Hin|exact K]).
    destruct F1 as (_ & B & _). destruct (final_barrier e c d final) as [c1 l1]. cbn [fst snd seq2] in *.
    destruct (IH rest c1 src dst (fun w Hw => Hok w (or_intror (or_intror Hw))) P2 Es Ed B) as (m1 & m2 & E & F).
    destruct (image_copies e size final rest c1) as [c2 l2]. cbn [snd] in *. rewrite E. eexists (_ :: l1 ++ m1), m2. split; [|exact F]. cbn [app]. rewrite <- app_assoc. reflexivity.
Qed.

(* A render pass registers no implicit action by itself. *)
Lemma fold_set_implicit {B} (vw : B -> view) (st : B -> lstate) : forall (l : list B) c,
  rc_implicit (fold_left (fun c x => set_view c (vw x) (st x)) l c) = rc_implicit c.
Proof. induction l as [|x l IH]; intro c; [reflexivity|]. cbn [fold_left]. rewrite IH. reflexivity. Qed.
Lemma step_implicit e g p i b a : rc_implicit (rb_ctx (target_step e g p i b a)) = rc_implicit (rb_ctx b).
Proof.
  unfold target_step. destruct (isTarget a); [|reflexivity]. cbv zeta. set (r := resolveView _ i).
  pose proof (current_implicit g (rb_ctx b) (v_image r) (v_type r) (v_range r)) as CI. destruct (getCurrentLayoutState g (rb_ctx b) (v_image r) (v_type r) (v_range r)) as [c1 cur].
  cbn [fst] in CI. rewrite <- CI. unfold addAttach. cbv beta iota zeta.
  destruct (orb _ _); cbn [rb_ctx with_depth with_colour with_ctx]; apply (fold_set_implicit (fun s => s)).
Qed.
Lemma initialise_implicit e g p i t c : rc_implicit (snd (fst (tg_initialise e g p i t c))) = rc_implicit c.
Proof.
  unfold tg_initialise. destruct (andb _ _); [reflexivity|]. cbn [fst snd]. unfold build_targets.
  assert (G : forall l b, rc_implicit (rb_ctx (fold_left (target_step e g p i) l b)) = rc_implicit (rb_ctx b)) by (induction l as [|a l IH]; intro b; [reflexivity|cbn [fold_left]; rewrite IH; apply step_implicit]).
  rewrite G. reflexivity.
Qed.
Lemma quiet_render e g p body t : quiet body -> quiet (rp_record (render_pass e g p body t)).
Proof.
  intros Q c i. cbn [render_pass rp_record]. unfold tg_record. pose proof (initialise_implicit e g p i t c) as I0.
  destruct (tg_initialise e g p i t c) as [[t1 c1] m]. cbn [fst snd] in I0. unfold tg_begin. destruct (tg_framebuffer i t1) as [t2 fb]. cbv beta iota.
  set (c2 := fold_left _ _ c1). assert (I2 : rc_implicit c2 = rc_implicit c) by (subst c2; rewrite <- I0; apply (fold_set_implicit (fun x => resolveView (en_view x) i))).
  specialize (Q c2 i). destruct (body c2 i) as [c3 l3]. cbn [fst] in Q. unfold tg_end. cbn [fst].
  rewrite (fold_set_implicit (fun x => resolveView (en_view x) i) en_output), <- I2. exact Q.
Qed.
