(* Recordings one after the other with render passes kept between them, continued. *)
From Verif Require Import Spec_Frames Proof_Layout Proof_Record Proof_Run2 Proof_Run3 Proof_Device Proof_Device2 Proof_Device3 Proof_Device4 Proof_Device5 Proof_Device6 Proof_Frames Proof_Frames2.
From Coq Require Import PeanoNat.
Local Open Scope N_scope.

Section Body.
Context (e : env) (g : rgraph) (F : view -> Prop) (HF : regions F).

Lemma same_or_separate (l : list view) w : (forall v, In v l -> F v) -> F w -> (exists v, In v l /\ same_region v w) \/ forall v, In v l -> separate_views v w.
Proof.
  induction l as [|x l IH]; intros Hl Hw; [right; intros x []|]. destruct (proj2 HF x w (Hl x (or_introl eq_refl)) Hw) as [S|S]; [left; exists x; split; [left; reflexivity|exact S]|].
  destruct (IH (fun y Hy => Hl y (or_intror Hy)) Hw) as [(y & Hy & Sy)|A]; [left; exists y; split; [right; exact Hy|exact Sy]|right]. intros y [<-|Hy]; [exact S|apply A, Hy].
Qed.
Lemma record_known p body t c : neutral_fun body -> (rp_index p < length (tg_passes t))%nat -> target_pass g F e p -> held_all (rp_images p) t ->
  forall v, F v -> known_layout c v <> L_UNDEFINED \/ (exists a, In a (rp_images p) /\ same_region (attach_view a (rp_index p)) v /\ isTarget a = true) ->
  known_layout (snd (fst (tg_record e g p (rp_index p) body t c))) v <> L_UNDEFINED.
Proof.
  intros Hb Hi (TF & TS & TN) [H Hn] v Fv Hv. set (i := rp_index p) in *. unfold tg_record.
  set (T := filter isTarget (rp_images p)).
  assert (LF : forall a, In a T -> F (attach_view a i)) by (intros a Ha; apply filter_In in Ha; apply TF; apply Ha).
  pose proof TS as LS. fold T in LS.
  destruct (tg_initialise e g p i t c) as [[t1 c1] made] eqn:E.
  assert (H1 : (Forall2 (fun a x => en_view x = attach_view a i /\ ls_layout (en_output x) <> L_UNDEFINED) T (rd_entries (pass_data t1 i)) /\ length (tg_passes t1) = length (tg_passes t)) /\
    forall w, F w -> (forall a, In a T -> separate_views (attach_view a i) w) -> known_layout c1 w = known_layout c w).
  { unfold tg_initialise in E. destruct (andb _ _) eqn:Chk.
    - injection E as <- <- _. apply andb_prop in Chk. destruct Chk as [Chk _]. apply andb_prop in Chk. destruct Chk as [Cr _]. apply negb_true_iff, N.eqb_neq in Cr.
      destruct (H i) as [Z|(A & B)]; [contradiction|]. rewrite A in B. split; [split; [|reflexivity]|reflexivity]. clear - B. unfold T. induction B as [|a x l es (B1 & B2 & _) B IH]; constructor; auto.
    - injection E as E1 E2 _.
      pose proof (built_all g F HF e p i c (rp_images p) [] {| rb_ctx := c; rb_descs := []; rb_entries := []; rb_clear := []; rb_blend := []; rb_colours := []; rb_depth := (0, 0) |}) as B.
      cbn [app] in B. assert (B' : built g F e i c (rp_images p) (build_targets e g p i c)).
      { apply B; [constructor; [constructor|reflexivity|reflexivity]| |intros x a []|exact TS]. intros a Ha T0. split; [apply TF; assumption|apply TN; assumption]. }
      destruct B' as [Be Bf Bi]. split; [split|].
      + rewrite <- E1. unfold pass_data. cbn [tg_passes]. rewrite nth_set_nth by exact Hi. cbn [rd_entries]. clear - Be. unfold T. induction Be as [|a x l es (A & B & _) H IH]; constructor; auto.
      + rewrite <- E1. cbn [tg_passes]. apply set_nth_length.
      + rewrite <- E2. intros w Fw Hs. apply Bf; [exact Fw|]. intros a Ha Ta. apply Hs, filter_In. auto. }
  destruct H1 as ((Hes & L1) & Fr).
  destruct (framebuffer_data i t1 ltac:(rewrite L1; exact Hi)) as (_ & D2 & _).
  unfold tg_begin. destruct (tg_framebuffer i t1) as [t2 fb]. cbn [fst] in D2. cbv beta iota zeta.
  change (pass_data (tg_emit t2 [TBegin (rd_renderPass (pass_data t2 i)) fb (rd_area (pass_data t2 i)) (rd_clear (pass_data t2 i))]) i) with (pass_data t2 i).
  set (es := rd_entries (pass_data t1 i)) in *. set (c2 := fold_left _ es c1). destruct (Hb c2 i) as [B1 _]. destruct (body c2 i) as [c3 lb]. cbn [fst] in B1. subst c3.
  unfold tg_end. change (pass_data (tg_emit t2 [TBegin (rd_renderPass (pass_data t2 i)) fb (rd_area (pass_data t2 i)) (rd_clear (pass_data t2 i))]) i) with (pass_data t2 i). cbn [fst snd]. rewrite D2.
  assert (Src : forall x, In x es -> F (en_view x) /\ resolveView (en_view x) i = en_view x).
  { intros x Hx. assert (exists a, In a T /\ en_view x = attach_view a i) as (a & Ha & Ea).
    { clear - Hes Hx. induction Hes as [|a y l' es' H0 H IH]; [destruct Hx|]. destruct Hx as [<-|Hx]; [exists a; split; [left; reflexivity|apply H0]|].
      destruct (IH Hx) as (b & Hb & E). exists b. split; [right; exact Hb|exact E]. }
    rewrite Ea. specialize (LF a Ha). split; [exact LF|]. apply resolve_plain, (proj1 HF), LF. }
  assert (Fold : forall (st : entry -> lstate) c0, fold_left (fun c x => set_view c (resolveView (en_view x) i) (st x)) es c0 =
     fold_left (fun c x => set_view c (fst x) (snd x)) (map (fun x => (en_view x, st x)) es) c0).
  { intros st. assert (G : forall es', (forall x, In x es' -> In x es) -> forall c0, fold_left (fun c x => set_view c (resolveView (en_view x) i) (st x)) es' c0 =
      fold_left (fun c x => set_view c (fst x) (snd x)) (map (fun x => (en_view x, st x)) es') c0).
    { induction es' as [|x es' IH]; intros Hsub c'; [reflexivity|]. cbn [fold_left map fst snd]. rewrite (proj2 (Src x (Hsub x (or_introl eq_refl)))). apply IH. intros y Hy. apply Hsub. right. exact Hy. }
    apply G. auto. }
  assert (FE : forall st : entry -> lstate, forall x, In x (map (fun x => (en_view x, st x)) es) -> F (fst x)).
  { intros st x Hx. apply in_map_iff in Hx. destruct Hx as (z & <- & Hz). apply (Src z Hz). }
  assert (SepE : pairwise (fun x y : view * lstate => separate_views (fst x) (fst y)) (map (fun x => (en_view x, en_output x)) es)).
  { clear - Hes LS. revert LS. induction Hes as [|a x l' es' H0 H IH]; intro P; cbn; [constructor|]. inversion P as [|? ? Pa P']; subst. constructor; [|apply IH, P'].
    intros y Hy. apply in_map_iff in Hy. destruct Hy as (z & <- & Hz). cbn [fst].
    assert (exists b, In b l' /\ en_view z = attach_view b i) as (b & Hb & Eb).
    { clear - H Hz. induction H as [|b y l'' es'' H1 H2 IH2]; [destruct Hz|]. destruct Hz as [<-|Hz]; [exists b; split; [left; reflexivity|apply H1]|].
      destruct (IH2 Hz) as (b' & Hb' & E). exists b'. split; [right; exact Hb'|exact E]. }
    rewrite (proj1 H0), Eb. destruct (Pa b Hb) as [A B]. split; assumption. }
  assert (Out : forall x, In x es -> ls_layout (en_output x) <> L_UNDEFINED).
  { intros x Hx. clear - Hes Hx. induction Hes as [|a y l' es' H0 H IH]; [destruct Hx|]. destruct Hx as [<-|Hx]; [apply H0|apply IH, Hx]. }
  assert (Ent : forall a, In a T -> exists x, In x es /\ en_view x = attach_view a i).
  { intros a Ha. clear - Hes Ha. induction Hes as [|b y l' es' H0 H IH]; [destruct Ha|]. destruct Ha as [->|Ha]; [exists y; split; [left; reflexivity|apply H0]|].
    destruct (IH Ha) as (z & Hz & E). exists z. split; [right; exact Hz|exact E]. }
  destruct (same_or_separate (map en_view es) v) as [(u & Hu & Su)|Sep]; [intros u Hu; apply in_map_iff in Hu; destruct Hu as (x & <- & Hx); apply (Src x Hx)|exact Fv| |].
  - apply in_map_iff in Hu. destruct Hu as (x & <- & Hx).
    rewrite <- (region_known _ (en_view x) v); [|apply (F_ok F HF), (Src x Hx)|apply (F_ok F HF), Fv|exact Su].
    rewrite Fold. rewrite (set_views_known F HF _ (FE en_output) SepE _ (en_view x) (en_output x)); [apply Out, Hx|]. apply in_map_iff. exists x. auto.
  - assert (Sep' : forall (st : entry -> lstate) x, In x (map (fun x => (en_view x, st x)) es) -> separate_views (fst x) v).
    { intros st x Hx. apply in_map_iff in Hx. destruct Hx as (z & <- & Hz). cbn [fst]. apply Sep, in_map, Hz. }
    assert (SepT : forall a, In a T -> separate_views (attach_view a i) v). { intros a Ha. destruct (Ent a Ha) as (x & Hx & <-). apply Sep, in_map, Hx. }
    unfold c2. rewrite !Fold. rewrite (set_views_frame F HF _ (FE en_output) _ v Fv (Sep' en_output)), (set_views_frame F HF _ (FE en_input) _ v Fv (Sep' en_input)).
    rewrite (Fr v Fv SepT). destruct Hv as [Hv|(a & Ia & Sa & Ta)]; [exact Hv|]. exfalso.
    assert (Fa : F (attach_view a i)) by (apply TF; assumption). assert (Ha : In a T) by (apply filter_In; auto). specialize (SepT a Ha).
    destruct (F_ok F HF v Fv) as [(X1 & X2 & _) _]. destruct Sa as (S0 & S1 & S2 & S3 & S4).
    destruct SepT as [Q|Q]; [apply Q; exact S0|]. apply (Q (r_layer (v_range v)) (r_mip (v_range v))); unfold in_range; rewrite ?S1, ?S2, ?S3, ?S4; lia.
Qed.

(* The body of a good pass. *)
Lemma body_of acts xt c d (K : view -> Prop) : good_pass e g F acts (fst xt) -> held_all (rp_images (fp_pass (fst xt))) (snd xt) ->
  (fp_render (fst xt) <> None -> (rp_index (fp_pass (fst xt)) < length (tg_passes (snd xt)))%nat /\
     (rd_renderPass (pass_data (snd xt) (rp_index (fp_pass (fst xt)))) = 0 \/
      forall a, In a (rp_images (fp_pass (fst xt))) -> isTarget a = true -> isInput a = true -> K (attach_view a (rp_index (fp_pass (fst xt)))))) ->
  right g F c d -> ready e (fp_pass (fst xt)) d -> (forall v, F v -> K v -> known_layout c v <> L_UNDEFINED) -> body_good e g F acts xt c d.
Proof.
  intros (_ & _ & _ & _ & _ & Hb) Hh Hr R Rd Kn. unfold body_good, live in *. destruct (fp_render (fst xt)) as [body|] eqn:Er.
  - destruct Hb as [Hp Hn]. destruct (Hr ltac:(discriminate)) as [Hi Hc]. set (p := fp_pass (fst xt)) in *. cbv zeta. cbn [render_pass rp_record rp_index rp_images].
    pose proof (proper_target_pass e g F HF p Hp) as Tp.
    pose proof (good_tg_record g F HF e p body (snd xt) c d Hn Tp (held_holds F p (snd xt) Hi Hh) R) as G.
    pose proof (record_known p body (snd xt) c Hn Hi Tp Hh) as RK.
    assert (Q : snd (tg_initialise e g p (rp_index p) (snd xt) c) = true \/
      forall x, In x (rd_entries (pass_data (snd xt) (rp_index p))) -> ls_layout (en_input x) = L_UNDEFINED \/ known_layout c (en_view x) <> L_UNDEFINED).
    { destruct Hc as [Hc|Hc]; [left; unfold tg_initialise; rewrite Hc; reflexivity|].
      destruct (proj1 Hh (rp_index p)) as [Z|(A & B)]; [left; unfold tg_initialise; rewrite Z; reflexivity|right].
      intros x Hx. rewrite A in B.
      assert (exists a, In a (filter isTarget (rp_images p)) /\ en_view x = attach_view a (rp_index p) /\ (isInput a = false -> ls_layout (en_input x) = L_UNDEFINED)) as (a & Ia & Ea & Ua).
      { clear - B Hx. induction B as [|a y l' es' H0 H IH]; [destruct Hx|]. destruct Hx as [<-|Hx]; [exists a; split; [left; reflexivity|split; apply H0]|].
        destruct (IH Hx) as (b & Hb & E). exists b. split; [right; exact Hb|exact E]. }
      apply filter_In in Ia. destruct Ia as [Ia Ta]. destruct (isInput a) eqn:In1; [right|left; apply Ua; reflexivity]. rewrite Ea. apply Kn; [|apply Hc; assumption].
      destruct Tp as (TF & _). apply TF; assumption. }
    specialize (G Q). destruct (tg_record e g p (rp_index p) body (snd xt) c) as [[t' c'] l]. destruct G as (A & B & C & _). cbn [fst snd] in *.
    split; [exact A|]. split; [exact B|]. split; [rewrite C; apply incl_refl|].
    intros v Fv [H|(a & Ia & Sa & Ta & _)]; apply RK; auto. right. exists a. auto.
  - destruct Hb as [Hs Hk]. cbv zeta. specialize (Hs c d R Rd). specialize (Hk c). destruct (rp_record (fp_pass (fst xt)) c (rp_index (fp_pass (fst xt)))) as [c' l]. cbn [fst] in Hk.
    destruct Hs as (A & B & C). split; [exact A|]. split; [exact B|]. split; [exact C|]. intros v Fv [H|(a & _ & _ & _ & N)]; [apply Hk; assumption|congruence].
Qed.

(* The loop over the passes. *)
Definition enabled_pass (x : fpass) : bool := e_enabled e (rp_id (fp_pass x)).
Definition pass_cond (start : rctx) (before : list fpass) (xt : fpass * target) : Prop :=
  fp_render (fst xt) <> None -> (rp_index (fp_pass (fst xt)) < length (tg_passes (snd xt)))%nat /\
    (rd_renderPass (pass_data (snd xt) (rp_index (fp_pass (fst xt)))) = 0 \/ inputs_known e start before (fst xt)).
Lemma prepare_known p rest c v : known_layout (prepare e g p rest c) v = known_layout c v.
Proof. unfold prepare. destruct rest; reflexivity. Qed.
Lemma loop_frames acts start : forall l before c d,
  (forall xt, In xt l -> good_pass e g F acts (fst xt) /\ incl (rp_implicit (fp_pass (fst xt))) acts /\ held_all (rp_images (fp_pass (fst xt))) (snd xt)) ->
  (forall i xt, nth_error l i = Some xt -> pass_cond start (before ++ map fst (firstn i l)) xt) ->
  pend acts c -> right g F c d ->
  (forall v, F v -> known_layout start v <> L_UNDEFINED \/ (exists y, In y before /\ brings e y v) -> known_layout c v <> L_UNDEFINED) ->
  fine g F acts d (fst (record_loop e g (map (live e g) l) c)) /\
  Forall2 (fun xt t => held_all (rp_images (fp_pass (fst xt))) t) l (kept_targets e g l c).
Proof.
  induction l as [|xt rest IH]; intros before c d Hl Hc P R Kn.
  { split; [split; [exact I|split; assumption]|constructor]. }
  cbn [map record_loop kept_targets]. set (p := live e g xt). set (c1 := prepare e g p (map (live e g) rest) c).
  destruct (Hl xt (or_introl eq_refl)) as (Gp & Ip & Hh).
  assert (P1 : pend acts c1) by (unfold pend, c1; rewrite prepare_implicit; exact P).
  assert (R1 : right g F c1 d) by (apply prepare_right, R).
  set (K := fun v => known_layout start v <> L_UNDEFINED \/ exists y, In y before /\ brings e y v).
  assert (K1 : forall v, F v -> K v -> known_layout c1 v <> L_UNDEFINED) by (intros v Fv Kv; unfold c1; rewrite prepare_known; apply Kn; assumption).
  pose proof (Hc 0%nat xt eq_refl) as C0. cbn [firstn map] in C0. rewrite app_nil_r in C0.
  assert (C0' : fp_render (fst xt) <> None -> (rp_index (fp_pass (fst xt)) < length (tg_passes (snd xt)))%nat /\
     (rd_renderPass (pass_data (snd xt) (rp_index (fp_pass (fst xt)))) = 0 \/
      forall a, In a (rp_images (fp_pass (fst xt))) -> isTarget a = true -> isInput a = true -> K (attach_view a (rp_index (fp_pass (fst xt)))))).
  { intro N. exact (C0 N). }
  destruct (into_good e g F HF acts xt c1 d K Gp Ip P1 R1 K1) as [Fi Kn2].
  { intros _ d' R' Rd' K'. apply (body_of acts xt _ d' K Gp Hh C0' R' Rd' K'). }
  fold p in Fi, Kn2. destruct (recordInto e g p c1) as [c2 l1]. destruct Fi as (A & B & D). cbn [fst snd] in *.
  destruct (IH (before ++ [fst xt]) c2 (after_all d l1)) as [(A2 & B2 & D2) H2].
  - intros y Hy. apply Hl. right. exact Hy.
  - intros i y Hy. specialize (Hc (S i) y Hy). cbn [firstn map] in Hc. rewrite <- app_assoc. exact Hc.
  - exact D.
  - exact B.
  - intros v Fv H. apply Kn2; [exact Fv|]. destruct H as [H|(y & Hy & Hb)]; [left; left; exact H|]. apply in_app_or in Hy. destruct Hy as [Hy|[<-|[]]]; [left; right; exists y; auto|right; exact Hb].
  - destruct (record_loop e g (map (live e g) rest) c2) as [[c3 l2] tr]. cbn [fst snd] in *. split.
    + unfold fine. cbn [fst snd]. split; [apply legal_app; auto|]. rewrite after_app. split; assumption.
    + constructor; [|exact H2]. unfold kept_target. destruct (fp_render (fst xt)) as [body|] eqn:Er; [|exact Hh]. destruct (e_enabled e (rp_id (fp_pass (fst xt)))); [|exact Hh].
      destruct (C0 ltac:(congruence)) as [Hi _]. destruct Gp as (_ & _ & _ & _ & _ & Hb). rewrite Er in Hb. destruct Hb as [Hp _].
      apply (held_record e g F HF); [exact Hi|apply (proper_target_pass e g F HF), Hp|exact Hh].
Qed.
End Body.

Lemma live_implicit e g l : flat_map rp_implicit (map (live e g) l) = flat_map (fun x => rp_implicit (fp_pass x)) (map fst l).
Proof. induction l as [|xt l IH]; [reflexivity|]. cbn [map flat_map]. rewrite IH. f_equal. unfold live. destruct (fp_render (fst xt)); reflexivity. Qed.
Lemma map_fst_combine {A B} (l : list A) : forall (m : list B), length l = length m -> map fst (combine l m) = l.
Proof. induction l as [|x l IH]; intros [|y m] H; try discriminate H; [reflexivity|]. cbn. f_equal. apply IH. injection H as H. exact H. Qed.
Lemma forall2_length {A B} (R : A -> B -> Prop) l m : Forall2 R l m -> length l = length m.
Proof. induction 1; cbn; congruence. Qed.
Lemma frames_all F : regions F -> forall shape l g ts d,
  (forall v, F v -> known_layout (g_final g) v = L_UNDEFINED \/ view_in d v (known_layout (g_final g) v)) ->
  Forall2 (fun images t => held_all images t) shape ts ->
  frames_may F shape g ts d l -> rframes_legal g ts l.
Proof.
  intros HF shape. induction l as [|f rest IH]; intros g ts d Hf Hh H; [exact I|]. cbn [frames_may rframes_legal] in *. cbv zeta in H.
  set (e := rf_env f) in *. set (xts := combine (rf_passes f) ts) in *. set (start := start_context e (rf_deps f) (map (live e g) xts)) in *.
  destruct H as (Hsh & Hg & Hc & Hs & Hi & Ho & Hr).
  assert (Len : length (rf_passes f) = length ts).
  { rewrite <- (forall2_length _ _ _ Hh), <- Hsh, map_length. reflexivity. }
  assert (Fst : map fst xts = rf_passes f) by (apply map_fst_combine, Len).
  assert (R : right g F start (rf_start f)).
  { intros v Fv. unfold truthful. rewrite said_spec. fold (input_layout g v).
    destruct (N.eqb_spec (known_layout start v) L_UNDEFINED) as [K|K].
    - destruct (N.eqb_spec (input_layout g v) L_UNDEFINED) as [J|J].
      + fold (known_layout (g_final g) v). destruct (Hf v Fv) as [Z|Z]; [left; exact Z|right; apply (Ho v Fv J), Z].
      + right. apply (Hi v Fv J).
    - destruct (Hs v Fv) as [Z|Z]; [contradiction|right; exact Z]. }
  set (acts := flat_map (fun x => rp_implicit (fp_pass x)) (rf_passes f)) in *.
  assert (HhX : Forall2 (fun x t => held_all (rp_images (fp_pass x)) t) (rf_passes f) ts).
  { rewrite <- Hsh in Hh. clear - Hh. revert Hh. generalize (rf_passes f) ts. induction l as [|x l IH]; intros ts0 H; inversion H; subst; constructor; auto. }
  assert (Hl : forall xt, In xt xts -> good_pass e g F acts (fst xt) /\ incl (rp_implicit (fp_pass (fst xt))) acts /\ held_all (rp_images (fp_pass (fst xt))) (snd xt)).
  { intros [x t] Hx. cbn [fst snd]. assert (Ix : In x (rf_passes f)) by (apply in_combine_l in Hx; exact Hx). split; [apply Hg, Ix|]. split.
    - intros y Hy. apply in_flat_map. exists x. auto.
    - clear - HhX Hx. unfold xts in Hx. clear xts. induction HhX as [|y u l m H0 H IH]; [destruct Hx|]. destruct Hx as [E|Hx]; [injection E as -> ->; exact H0|apply IH, Hx]. }
  assert (P : pend acts start) by (intros q v a Hx; unfold start in Hx; rewrite start_implicit in Hx; destruct Hx).
  assert (Hcl : forall i xt, nth_error xts i = Some xt -> pass_cond e start ([] ++ map fst (firstn i xts)) xt).
  { intros i [x t] Hx. cbn [app]. rewrite <- firstn_map, Fst.
    assert (nth_error (rf_passes f) i = Some x /\ nth_error ts i = Some t) as [N1 N2].
    { clear - Hx. unfold xts in Hx. revert Hx. generalize (rf_passes f) ts. clear. induction i as [|i IH]; intros [|y l] [|u m] H; try discriminate H; cbn in *; [injection H as -> ->; auto|apply IH, H]. }
    intro N. apply (Hc i x t N1 N2 N). }
  destruct (loop_frames e g F HF acts start xts [] start (rf_start f) Hl Hcl P R) as [(A & B & _) HT].
  { intros v _ [H|(y & [] & _)]. exact H. }
  unfold record_frame in *. fold start in Hr |- *. unfold record_graph in *. fold start in Hr |- *.
  destruct (record_loop e g (map (live e g) xts) start) as [[c l] tr]. cbn [fst snd] in *.
  split; [exact A|]. apply (IH _ _ (after_all (rf_start f) l)); [| |exact Hr].
  - intros v Fv. cbn [g_final]. destruct (N.eq_dec (known_layout c v) L_UNDEFINED) as [K|K]; [left; exact K|right].
    destruct (B v Fv) as [T|T]; rewrite said_known in T by exact K; [contradiction|exact T].
  - rewrite <- Hsh, <- Fst. revert HT. generalize (kept_targets e g xts start). generalize xts. clear. induction xts as [|xt l IH]; intros m H; inversion H; subst; constructor; auto.
Qed.
