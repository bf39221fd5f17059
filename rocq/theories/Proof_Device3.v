(* Render passes on the device, continued: the whole recording of a render pass. *)
From Verif Require Import Spec_Device Proof_Layout Proof_Record Proof_Run2 Proof_Run3 Proof_Device Proof_Device2.
From Coq Require Import PeanoNat.
Local Open Scope N_scope.

Lemma nth_set_nth {A} (l : list A) : forall i x d, (i < length l)%nat -> nth i (set_nth i x l) d = x.
Proof. induction l as [|y l IH]; intros [|i] x d H; cbn in *; try lia; [reflexivity|]. apply IH. lia. Qed.
Lemma set_nth_length {A} (l : list A) : forall i x, length (set_nth i x l) = length l.
Proof. induction l as [|y l IH]; intros [|i] x; cbn; auto. Qed.
Lemma combine_entries (l : list attach) (es : list entry) (R : attach -> entry -> Prop) : Forall2 R l es -> forall x a, In (x, a) (combine es l) -> R a x.
Proof. induction 1 as [|a x l es H0 H IH]; cbn; intros y b; [intros []|]. intros [E|E]; [injection E as <- <-; exact H0|apply IH, E]. Qed.
Lemma combine_fst (l : list attach) (es : list entry) (R : attach -> entry -> Prop) : Forall2 R l es -> map fst (combine es l) = es.
Proof. induction 1 as [|a x l es H0 H IH]; cbn; [reflexivity|]. f_equal. exact IH. Qed.

(* The framebuffer does not change the rest. *)
Lemma framebuffer_data i t : (i < length (tg_passes t))%nat ->
  let d := pass_data t i in let d' := pass_data (fst (tg_framebuffer i t)) i in
  rd_renderPass d' = rd_renderPass d /\ rd_entries d' = rd_entries d /\ rd_attachments d' = rd_attachments d /\ rd_area d' = rd_area d /\ rd_clear d' = rd_clear d /\
  length (tg_passes (fst (tg_framebuffer i t))) = length (tg_passes t).
Proof.
  intros H d d'. unfold d', tg_framebuffer. fold d. destruct (N.eqb (rd_framebuffer d) 0); cbn [fst tg_passes]; [|repeat split].
  unfold pass_data at 1 2 3 4 5. cbn [tg_passes]. rewrite nth_set_nth by exact H. rewrite set_nth_length. repeat split.
Qed.

Section Record.
Context (g : rgraph) (F : view -> Prop) (HF : regions F).
(* From a begun render pass to its end. *)
Lemma good_begin_end p body t c0 c d : neutral_fun body -> (rp_index p < length (tg_passes t))%nat ->
  let es := rd_entries (pass_data t (rp_index p)) in let l := rd_attachments (pass_data t (rp_index p)) in
  Forall2 (fun a x => en_view x = attach_view a (rp_index p) /\ ls_layout (en_output x) <> L_UNDEFINED) l es ->
  (forall a, In a l -> F (attach_view a (rp_index p))) ->
  pairwise (fun a b => separate_views (attach_view a (rp_index p)) (attach_view b (rp_index p))) l ->
  (forall x, In x es -> ls_layout (en_input x) = L_UNDEFINED \/ view_in d (en_view x) (ls_layout (en_input x))) ->
  (forall w, F w -> (forall a, In a l -> separate_views (attach_view a (rp_index p)) w) -> known_layout c w = known_layout c0 w) ->
  right g F c0 d ->
  let '(t1, c1) := tg_begin (rp_index p) t c in
  let infos := begun (pass_data t1 (rp_index p)) in
  let '(c2, lb) := body c1 (rp_index p) in
  let '(t3, c3) := tg_end (rp_index p) t1 c2 in
  all_legal d (CBeginRenderPass infos :: lb ++ [CEndRenderPass infos]) /\
  right g F c3 (after_all d (CBeginRenderPass infos :: lb ++ [CEndRenderPass infos])) /\ rc_implicit c3 = rc_implicit c /\
  rd_entries (pass_data t3 (rp_index p)) = es /\ rd_attachments (pass_data t3 (rp_index p)) = l.
Proof.
  intros Hb Hlen es l Hes HlF Hsep Hin Hfr R. set (i := rp_index p) in *.
  destruct (framebuffer_data i t Hlen) as (D1 & D2 & D3 & D4 & D5 & D6).
  unfold tg_begin. destruct (tg_framebuffer i t) as [t1 fb]. cbn [fst] in *. cbv beta iota zeta.
  change (pass_data (tg_emit t1 [TBegin (rd_renderPass (pass_data t1 i)) fb (rd_area (pass_data t1 i)) (rd_clear (pass_data t1 i))]) i) with (pass_data t1 i).
  fold es. set (c1 := fold_left _ es c). set (infos := begun (pass_data t1 i)).
  destruct (Hb c1 i) as [B1 B2]. destruct (body c1 i) as [c2 lb]. cbn [fst snd] in B1, B2. subst c2.
  unfold tg_end. change (pass_data (tg_emit t1 [TBegin (rd_renderPass (pass_data t1 i)) fb (rd_area (pass_data t1 i)) (rd_clear (pass_data t1 i))]) i) with (pass_data t1 i).
  rewrite D2. fold es. set (c3 := fold_left _ es c1).
  (* entries as views and states *)
  assert (Src : forall x, In x es -> F (en_view x) /\ resolveView (en_view x) i = en_view x).
  { intros x Hx. assert (exists a, In a l /\ en_view x = attach_view a i) as (a & Ha & Ea).
    { clear - Hes Hx. induction Hes as [|a y l' es' H0 H IH]; [destruct Hx|]. destruct Hx as [<-|Hx]; [exists a; split; [left; reflexivity|apply H0]|].
      destruct (IH Hx) as (b & Hb & E). exists b. split; [right; exact Hb|exact E]. }
    rewrite Ea. specialize (HlF a Ha). split; [exact HlF|]. apply resolve_plain, (proj1 HF), HlF. }
  assert (Fold : forall (st : entry -> lstate) c0, fold_left (fun c x => set_view c (resolveView (en_view x) i) (st x)) es c0 =
     fold_left (fun c x => set_view c (fst x) (snd x)) (map (fun x => (en_view x, st x)) es) c0).
  { intros st. assert (G : forall es', (forall x, In x es' -> In x es) -> forall c0, fold_left (fun c x => set_view c (resolveView (en_view x) i) (st x)) es' c0 =
      fold_left (fun c x => set_view c (fst x) (snd x)) (map (fun x => (en_view x, st x)) es') c0).
    { induction es' as [|x es' IH]; intros Hsub c'; [reflexivity|]. cbn [fold_left map fst snd]. rewrite (proj2 (Src x (Hsub x (or_introl eq_refl)))). apply IH. intros y Hy. apply Hsub. right. exact Hy. }
    apply G. auto. }
  assert (SepE : forall st : entry -> lstate, pairwise (fun x y => separate_views (fst x) (fst y)) (map (fun x => (en_view x, st x)) es)).
  { intro st. clear - Hes Hsep. revert Hsep. induction Hes as [|a x l' es' H0 H IH]; intro P; cbn; [constructor|]. inversion P as [|? ? Pa P']; subst. constructor; [|apply IH, P'].
    intros y Hy. apply in_map_iff in Hy. destruct Hy as (z & <- & Hz). cbn [fst].
    assert (exists b, In b l' /\ en_view z = attach_view b i) as (b & Hb & Eb).
    { clear - H Hz. induction H as [|b y l'' es'' H1 H2 IH2]; [destruct Hz|]. destruct Hz as [<-|Hz]; [exists b; split; [left; reflexivity|apply H1]|].
      destruct (IH2 Hz) as (b' & Hb' & E). exists b'. split; [right; exact Hb'|exact E]. }
    rewrite (proj1 H0), Eb. destruct (Pa b Hb) as [A B]. split; assumption. }
  assert (FE : forall st : entry -> lstate, forall x, In x (map (fun x => (en_view x, st x)) es) -> F (fst x)).
  { intros st x Hx. apply in_map_iff in Hx. destruct Hx as (z & <- & Hz). apply (Src z Hz). }
  assert (Infos : infos = map (fun xa : entry * attach => (en_view (fst xa), ls_layout (en_input (fst xa)), ls_layout (en_output (fst xa)),
     described_ops (fst xa) (snd xa))) (combine es l)).
  { unfold infos, begun. rewrite D2, D3. reflexivity. }
  destruct (neutral_all lb B2 d) as [Lb Ab].
  assert (Out : forall x, In x es -> ls_layout (en_output x) <> L_UNDEFINED).
  { intros x Hx. clear - Hes Hx. induction Hes as [|a y l' es' H0 H IH]; [destruct Hx|]. destruct Hx as [<-|Hx]; [apply H0|apply IH, Hx]. }
  assert (Aft : after_all d (CBeginRenderPass infos :: lb ++ [CEndRenderPass infos]) =
    fold_left (fun d x => put d (i_id (v_image (fst x))) (v_range (fst x)) (snd x)) (map (fun x => (en_view x, ls_layout (en_output x))) es) d).
  { cbn [after_all fold_left after]. change (fold_left after (lb ++ [CEndRenderPass infos]) d) with (after_all d (lb ++ [CEndRenderPass infos])).
    rewrite after_app, Ab. cbn [after_all fold_left after]. rewrite Infos.
    rewrite <- (combine_fst l es _ Hes) at 2. generalize (combine es l). intro l0. clear. revert d. induction l0 as [|[x a] r IH]; intro d0; [reflexivity|]. cbn [map fold_left fst snd]. apply IH. }
  split; [|split; [|split; [|split; [exact D2|exact D3]]]].
  - cbn [all_legal after]. split.
    + cbn [legal]. intros v ini fin lo H. rewrite Infos in H. apply in_map_iff in H. destruct H as ([x a] & E & Hxa). cbn [fst snd] in E. injection E as <- <- <- <-.
      assert (Hx : In x es) by (apply in_combine_l in Hxa; exact Hxa). split; [apply Hin, Hx|apply Out, Hx].
    + apply legal_app. split; [exact Lb|]. cbn [all_legal legal]. auto.
  - rewrite Aft. apply (right_targets g F HF c0 c3 d _ (map (fun x => (en_view x, ls_layout (en_output x))) es)).
    + intros x Hx. apply in_map_iff in Hx. destruct Hx as (z & <- & Hz). apply (Src z Hz).
    + intros v k Hvk. split; [|split].
      * apply in_map_iff in Hvk. destruct Hvk as (x & E & Hx). injection E as <- <-. unfold c3. rewrite Fold.
        apply (set_views_known F HF); [apply FE|apply SepE|]. apply in_map_iff. exists x. auto.
      * apply in_map_iff in Hvk. destruct Hvk as (x & E & Hx). injection E as <- <-. apply Out, Hx.
      * apply put_views_in; [|exact Hvk]. specialize (SepE en_output). clear - SepE. clearbody es.
        remember (map (fun x => (en_view x, en_output x)) es) as m eqn:Em. revert es Em. induction SepE as [|y m Hy P IH]; intros es Em; destruct es as [|x es]; try discriminate; [constructor|].
        cbn in Em. injection Em as Ey Em. cbn [map]. constructor; [|apply IH; exact Em]. intros z Hz. apply in_map_iff in Hz. destruct Hz as (u & <- & Hu). cbn [fst].
        assert (X : In (en_view u, en_output u) m) by (rewrite Em; apply (in_map (fun x => (en_view x, en_output x))), Hu). specialize (Hy _ X). rewrite Ey in Hy. exact Hy.
    + intros w Hw Hsw. assert (S' : forall st : entry -> lstate, forall x, In x (map (fun x => (en_view x, st x)) es) -> separate_views (fst x) w).
      { intros st x Hx. apply in_map_iff in Hx. destruct Hx as (z & <- & Hz). apply (Hsw (en_view z, ls_layout (en_output z))). apply in_map_iff. exists z. auto. }
      split.
      * unfold c3, c1. rewrite !Fold. rewrite (set_views_frame F HF _ (FE en_output) _ w Hw (S' en_output)). rewrite (set_views_frame F HF _ (FE en_input) _ w Hw (S' en_input)).
        apply Hfr; [exact Hw|]. intros a Ha. assert (exists x, In x es /\ en_view x = attach_view a i) as (x & Hx & Ex).
        { clear - Hes Ha. induction Hes as [|b y l' es' H0 H IH]; [destruct Ha|]. destruct Ha as [->|Ha]; [exists y; split; [left; reflexivity|apply H0]|].
          destruct (IH Ha) as (z & Hz & E). exists z. split; [right; exact Hz|exact E]. }
        rewrite <- Ex. apply (Hsw (en_view x, ls_layout (en_output x))). apply in_map_iff. exists x. auto.
      * intros k Hk. apply put_views_frame; [|exact Hk]. exact Hsw.
    + exact R.
  - unfold c3, c1. rewrite !Fold, !set_views_implicit. reflexivity.
Qed.

(* What is required of the attachments of a render pass. *)
Definition target_pass (e : env) (p : rpass) : Prop :=
  (forall a, In a (rp_images p) -> isTarget a = true -> F (attach_view a (rp_index p))) /\
  pairwise (fun a b => separate_views (attach_view a (rp_index p)) (attach_view b (rp_index p))) (filter isTarget (rp_images p)) /\
  (forall a, In a (rp_images p) -> isTarget a = true -> forall c, ls_layout (getNextLayoutState e g c p (attach_view a (rp_index p))) <> L_UNDEFINED).
Lemma pairwise_filter {A} (Q : A -> A -> Prop) f l : pairwise Q l -> pairwise Q (filter f l).
Proof.
  induction 1 as [|x l H P IH]; cbn; [constructor|]. destruct (f x); [|exact IH]. constructor; [|exact IH]. intros y Hy. apply filter_In in Hy. apply H, Hy.
Qed.
(* A render pass made now, or one of which every expected layout is known by the recording. *)
Lemma good_tg_record e p body t c d : neutral_fun body -> target_pass e p -> holds F p t -> right g F c d ->
  (snd (tg_initialise e g p (rp_index p) t c) = true \/
   forall x, In x (rd_entries (pass_data t (rp_index p))) -> ls_layout (en_input x) = L_UNDEFINED \/ known_layout c (en_view x) <> L_UNDEFINED) ->
  let '(t', c', l) := tg_record e g p (rp_index p) body t c in
  all_legal d l /\ right g F c' (after_all d l) /\ rc_implicit c' = rc_implicit c /\
  Forall2 (fun a x => en_view x = attach_view a (rp_index p) /\ ls_layout (en_output x) <> L_UNDEFINED) (rd_attachments (pass_data t' (rp_index p))) (rd_entries (pass_data t' (rp_index p))) /\
  rd_attachments (pass_data t' (rp_index p)) = filter isTarget (rp_images p).
Proof.
  intros Hb (TF & TS & TN) (Hlen & Hold & Hn) R Hyp. set (i := rp_index p) in *. unfold tg_record.
  assert (LF : forall a, In a (filter isTarget (rp_images p)) -> F (attach_view a i)) by (intros a Ha; apply filter_In in Ha; apply TF; apply Ha).
  pose proof TS as LS.
  destruct (tg_initialise e g p i t c) as [[t1 c1] made] eqn:E. cbn [snd] in Hyp. unfold tg_initialise in E.
  destruct (andb _ _) eqn:Chk.
  - (* reused *)
    injection E as <- <- <-. destruct Hyp as [Hyp|Hyp]; [discriminate|].
    apply andb_prop in Chk. destruct Chk as [Chk _]. apply andb_prop in Chk. destruct Chk as [Cr Ck]. apply negb_true_iff, N.eqb_neq in Cr.
    destruct Hold as [Hold|(Ha & Hes)]; [contradiction|].
    pose proof (good_begin_end p body t c c d Hb Hlen) as G. cbn zeta in G. fold i in G. rewrite Ha in *.
    specialize (G Hes LF LS).
    assert (In1 : forall x, In x (rd_entries (pass_data t i)) -> ls_layout (en_input x) = L_UNDEFINED \/ view_in d (en_view x) (ls_layout (en_input x))).
    { intros x Hx. destruct (Hyp x Hx) as [U|K]; [left; exact U|right].
      assert (exists a, In a (filter isTarget (rp_images p)) /\ en_view x = attach_view a i) as (a & Ia & Ea).
      { clear - Hes Hx. induction Hes as [|a y l' es' H0 H IH]; [destruct Hx|]. destruct Hx as [<-|Hx]; [exists a; split; [left; reflexivity|apply H0]|].
        destruct (IH Hx) as (b & Hb & E). exists b. split; [right; exact Hb|exact E]. }
      assert (Fv : F (en_view x)) by (rewrite Ea; apply LF, Ia).
      unfold checkAttaches in Ck. rewrite forallb_forall in Ck. specialize (Ck x Hx). rewrite (resolve_plain (en_view x) i) in Ck by (apply (proj1 HF), Fv).
      cbn zeta in Ck. apply negb_true_iff in Ck. unfold get_view in Ck. fold (known_layout c (en_view x)) in Ck.
      assert (NE : N.eqb (known_layout c (en_view x)) L_UNDEFINED = false) by (apply N.eqb_neq, K). rewrite NE in Ck. cbn [negb] in Ck. rewrite andb_true_r in Ck.
      unfold lstate_differs in Ck. apply orb_false_elim in Ck. destruct Ck as [Ck _]. apply negb_false_iff, N.eqb_eq in Ck. fold (known_layout c (en_view x)) in Ck.
      rewrite <- Ck. destruct (R _ Fv) as [T|T]; rewrite said_known in T by exact K; [contradiction|exact T]. }
    specialize (G In1 (fun w _ _ => eq_refl) R).
    destruct (tg_begin i t c) as [t2 c2]. destruct (body c2 i) as [c3 lb]. destruct (tg_end i t2 c3) as [t4 c4].
    destruct G as (A & B & C & D1 & D2). rewrite D1, D2. auto.
  - (* made *)
    injection E as E1 E2 _.
    pose proof (built_all g F HF e p i c (rp_images p) [] {| rb_ctx := c; rb_descs := []; rb_entries := []; rb_clear := []; rb_blend := []; rb_colours := []; rb_depth := (0, 0) |}) as B.
    cbn [app] in B. assert (B' : built g F e i c (rp_images p) (build_targets e g p i c)).
    { apply B; [constructor; [constructor|reflexivity|reflexivity]| |intros x a []|exact TS]. intros a Ha T. split; [apply TF; assumption|apply TN; assumption]. }
    clear B. destruct B' as [Be Bf Bi]. rewrite <- E2. clear E2. set (b := build_targets e g p i c) in *.
    assert (Pd : rd_entries (pass_data t1 i) = rb_entries b /\ rd_attachments (pass_data t1 i) = filter isTarget (rp_images p) /\ length (tg_passes t1) = length (tg_passes t)).
    { rewrite <- E1. unfold pass_data. cbn [tg_passes]. rewrite nth_set_nth by exact Hlen. rewrite set_nth_length. repeat split. }
    destruct Pd as (P1 & P2 & P3).
    pose proof (good_begin_end p body t1 c (rb_ctx b) d Hb ltac:(rewrite P3; exact Hlen)) as G. cbn zeta in G. fold i in G. rewrite P1, P2 in G.
    assert (Hes : Forall2 (fun a x => en_view x = attach_view a i /\ ls_layout (en_output x) <> L_UNDEFINED) (filter isTarget (rp_images p)) (rb_entries b)).
    { clear - Be. induction Be as [|a x l es H0 H IH]; constructor; [destruct H0 as (A & B & _); auto|exact IH]. }
    specialize (G Hes LF LS).
    assert (In1 : forall x, In x (rb_entries b) -> ls_layout (en_input x) = L_UNDEFINED \/ view_in d (en_view x) (ls_layout (en_input x))).
    { intros x Hx. assert (exists a, In a (filter isTarget (rp_images p)) /\ described g e i c a x) as (a & Ia & (Ea & _ & El)).
      { clear - Be Hx. induction Be as [|a y l' es' H0 H IH]; [destruct Hx|]. destruct Hx as [<-|Hx]; [exists a; split; [left; reflexivity|apply H0]|].
        destruct (IH Hx) as (b' & Hb' & E). exists b'. split; [right; exact Hb'|exact E]. }
      rewrite El, Ea. destruct (isInput a); [|left; reflexivity]. apply (R _ (LF a Ia)). }
    assert (Fr : forall w, F w -> (forall a, In a (filter isTarget (rp_images p)) -> separate_views (attach_view a i) w) -> known_layout (rb_ctx b) w = known_layout c w).
    { intros w Hw H. apply Bf; [exact Hw|]. intros a Ha T. apply H, filter_In. auto. }
    specialize (G In1 Fr R).
    destruct (tg_begin i t1 (rb_ctx b)) as [t2 c2]. destruct (body c2 i) as [c3 lb]. destruct (tg_end i t2 c3) as [t4 c4].
    destruct G as (A & B & C & D1 & D2). rewrite D1, D2. split; [exact A|]. split; [exact B|]. split; [rewrite C; exact Bi|]. split; [exact Hes|reflexivity].
Qed.
End Record.
