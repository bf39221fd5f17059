(* Views that overlap: the attachments of a pass and the recording of a pass. *)
From Verif Require Import Spec_Overlap Proof_Layout Proof_Record Proof_Run2 Proof_Run3 Proof_Device Proof_Device4 Proof_Device5 Proof_Overlap.
Local Open Scope N_scope.

Definition alike (d d' : layouts) : Prop := forall i layer mip, d i layer mip = d' i layer mip.
Lemma alike_sym d d' : alike d d' -> alike d' d.
Proof. intros H i l m. symmetry. apply H. Qed.
Lemma alike_trans a b c : alike a b -> alike b c -> alike a c.
Proof. intros H K i l m. rewrite H. apply K. Qed.
Lemma alike_in d d' v k : alike d d' -> view_in d v k -> view_in d' v k.
Proof. intros H K layer mip R. rewrite <- H. apply K, R. Qed.
Lemma alike_one d d' v : alike d d' -> one_layout d v -> one_layout d' v.
Proof. intros H [k K]. exists k. apply (alike_in d); assumption. Qed.
Lemma alike_moved d d' x : alike d d' -> alike (moved d x) (moved d' x).
Proof. intros H i l m. unfold moved, put. destruct (andb _ _); [reflexivity|apply H]. Qed.
Lemma alike_fold l : forall d d', alike d d' -> alike (fold_left moved l d) (fold_left moved l d').
Proof. induction l as [|x l IH]; intros d d' H; [exact H|]. cbn [fold_left]. apply IH, alike_moved, H. Qed.
Lemma alike_even l : forall d d', alike d d' -> even_uses d l -> even_uses d' l.
Proof. induction l as [|x l IH]; intros d d' H E; [exact I|]. cbn [even_uses] in *. destruct E as [A B]. split; [apply (alike_one d); assumption|]. apply (IH (moved d x)); [apply alike_moved, H|exact B]. Qed.
Lemma alike_targets p d d' : alike d d' -> even_targets p d -> even_targets p d'.
Proof. intros H E a Ha Ht. apply (alike_one d); auto. Qed.
Lemma alike_ready e p d d' : alike d d' -> ready e p d -> ready e p d'.
Proof. intros H R a Ha Ht Hl. apply (alike_in d); auto. Qed.
Lemma separate_out v w layer mip : separate_views v w -> in_range (v_range v) layer mip -> andb (N.eqb (i_id (v_image w)) (i_id (v_image v))) (in_rangeb (v_range w) layer mip) = false.
Proof.
  intros S R. destruct (N.eqb_spec (i_id (v_image w)) (i_id (v_image v))) as [E|E]; [|reflexivity]. cbn [andb]. destruct (in_rangeb (v_range w) layer mip) eqn:B; [|reflexivity].
  exfalso. apply in_rangeb_spec in B. destruct S as [S|S]; [congruence|]. exact (S layer mip R B).
Qed.
(* Once moved, the views are in the layouts. *)
Lemma fold_keeps l : forall d v k, view_in d v k -> (forall y, In y l -> separate_views v (fst y) \/ k = snd y) -> view_in (fold_left moved l d) v k.
Proof.
  induction l as [|y l IH]; intros d v k H S; [exact H|]. cbn [fold_left]. apply IH; [|intros z Hz; apply S; right; exact Hz].
  intros layer mip R. unfold moved, put. destruct (S y (or_introl eq_refl)) as [E|E]; [rewrite separate_out by assumption; apply H, R|].
  destruct (andb _ _); [symmetry; exact E|apply H, R].
Qed.
Lemma fold_in l : forall d, (forall x y, In x l -> In y l -> separate_views (fst x) (fst y) \/ snd x = snd y) -> forall x, In x l -> view_in (fold_left moved l d) (fst x) (snd x).
Proof.
  induction l as [|y l IH]; intros d S x Hx; [destruct Hx|]. cbn [fold_left]. destruct Hx as [->|Hx].
  - apply fold_keeps; [|intros z Hz; apply S; [left; reflexivity|right; exact Hz]]. intros layer mip R. unfold moved. apply put_in, R.
  - apply IH; [|exact Hx]. intros a b Ha Hb. apply S; right; assumption.
Qed.

Section Pass.
Context (e : env) (g : rgraph) (V : view -> Prop) (HV : forall v, V v -> view_ok v) (HI : never_undefined (g_inputs g)).
Local Notation fair := (fair_ctx g V).

Lemma fair_alike c d d' : alike d d' -> fair c d -> fair c d'.
Proof. intros H (P & C & I0). split; [|auto]. apply (parts_same g V c d); [intros; symmetry; apply H|exact P]. Qed.
Lemma fair_same_images c c' d : rc_images c' = rc_images c -> rc_implicit c' = rc_implicit c -> fair c d -> fair c' d.
Proof. intros E1 E2 (P & C & I0). split; [|rewrite E1, E2; auto]. apply (parts_ext g V HV c); [intros; rewrite E1; reflexivity|exact P]. Qed.

Lemma fair_image p a c d : let v := attach_view a (rp_index p) in let k := a_getImageLayout a (e_separate e) in let x := record_image e g p a c in
  V v -> fair c d -> (has_transition a = true -> one_layout d v /\ k <> L_UNDEFINED) ->
  all_legal d (snd x) /\ fair (fst x) (after_all d (snd x)) /\ alike (after_all d (snd x)) (if has_transition a then moved d (v, k) else d).
Proof.
  intros v k x Hv F Ho. unfold x, record_image. clear x. fold v. fold (has_transition a).
  unfold runImplicit. rewrite (proj2 (proj2 F)). cbn [length runImplicit_fuel]. rewrite (proj2 (proj2 F)). cbn [take_first seq2].
  destruct (has_transition a); [|cbn [fst snd after_all fold_left all_legal]; split; [exact I|split; [exact F|intros i l m; reflexivity]]].
  destruct (Ho eq_refl) as [[k0 H] Hk]. clear Ho.
  assert (C : exists c1 cur, (if isInput a then getCurrentLayoutState g c (v_image v) (v_type v) (v_range v) else (c, makeLayoutState L_UNDEFINED)) = (c1, cur)
    /\ fair c1 d /\ (ls_layout cur = L_UNDEFINED \/ ls_layout cur = k0)).
  { destruct (isInput a).
    - destruct (getCurrentLayoutState g c (v_image v) (v_type v) (v_range v)) as [c1 s] eqn:E. exists c1, s. split; [reflexivity|]. apply (fair_current g V HV HI c d v c1 s k0 Hv F H E).
    - exists c, (makeLayoutState L_UNDEFINED). auto. }
  destruct C as (c1 & cur & -> & F1 & D). set (needed := makeLayoutState (a_getImageLayout a (e_separate e))).
  assert (Nk : ls_layout needed = k) by reflexivity.
  set (Z := if isClearableImage a then _ else _). enough (GZ : all_legal d (snd Z) /\ fair (fst Z) (after_all d (snd Z)) /\ alike (after_all d (snd Z)) (moved d (v, k))) by (destruct Z as [cz lz]; exact GZ).
  unfold Z, memoryBarrier_view. clear Z. destruct (isClearableImage a).
  2:{ destruct (fair_barrier g V HV (e_separate e) c1 d v (ls_layout cur) needed k0 Hv F1 H D) as (A & B & C); [rewrite Nk; exact Hk|]. auto. }
  destruct (fair_barrier g V HV (e_separate e) c1 d v (ls_layout cur) transfer_dst_state k0 Hv F1 H D ltac:(discriminate)) as (A1 & B1 & C1).
  destruct (memoryBarrier (e_separate e) c1 (v_image v) (v_type v) (v_range v) (ls_layout cur) transfer_dst_state false) as [c2 l2]. cbn [fst snd] in *.
  set (y := if isColourFormat (v_format v) then _ else _). assert (Ey : forall d', after d' y = d') by (intro d'; unfold y; destruct (isColourFormat _); reflexivity).
  assert (E2 : after_all d (l2 ++ [y]) = after_all d l2) by (rewrite after_app; cbn [after_all fold_left]; apply Ey).
  assert (K : view_in (after_all d l2) v L_TRANSFER_DST) by (intros layer mip R; rewrite B1; apply put_in, R).
  assert (A2 : all_legal d (l2 ++ [y])).
  { apply legal_app. split; [exact A1|]. split; [|exact I]. unfold y. destruct (isColourFormat _); (split; [left; reflexivity|exact K]). }
  cbn [seq2 emit].
  destruct (fair_barrier g V HV (e_separate e) c2 (after_all d l2) v L_TRANSFER_DST needed L_TRANSFER_DST Hv C1 K (or_intror eq_refl)) as (A3 & B3 & C3); [rewrite Nk; exact Hk|].
  destruct (memoryBarrier (e_separate e) c2 (v_image v) (v_type v) (v_range v) L_TRANSFER_DST needed false) as [c4 l4]. cbn [fst snd] in *.
  rewrite after_app, E2. split; [apply legal_app; rewrite E2; auto|]. split; [exact C3|]. intros i layer mip. rewrite B3, Nk. unfold moved, put at 1. cbn [fst snd]. unfold put at 1.
  destruct (andb _ _) eqn:Ea; [reflexivity|]. rewrite B1. unfold put. rewrite Ea. reflexivity.
Qed.

Lemma fair_images p l : forall c d, (forall a, In a l -> V (attach_view a (rp_index p))) ->
  let ask := map (fun a => (attach_view a (rp_index p), a_getImageLayout a (e_separate e))) (filter has_transition l) in
  (forall x, In x ask -> snd x <> L_UNDEFINED) -> even_uses d ask -> fair c d ->
  let x := run_all (record_image e g p) l c in
  all_legal d (snd x) /\ fair (fst x) (after_all d (snd x)) /\ alike (after_all d (snd x)) (fold_left moved ask d).
Proof.
  induction l as [|a l IH]; intros c d Hv; cbv zeta.
  - intros _ _ F. split; [exact I|]. split; [exact F|intros i ly m; reflexivity].
  - intros Hu Ev F. rewrite run_all_cons.
    assert (Ho : has_transition a = true -> one_layout d (attach_view a (rp_index p)) /\ a_getImageLayout a (e_separate e) <> L_UNDEFINED).
    { intro T. cbn [filter] in Hu, Ev. rewrite T in Hu, Ev. cbn [map even_uses] in Hu, Ev. split; [apply (proj1 Ev)|apply (Hu _ (or_introl eq_refl))]. }
    destruct (fair_image p a c d (Hv a (or_introl eq_refl)) F Ho) as (A1 & B1 & C1).
    destruct (record_image e g p a c) as [c1 l1]. cbn [fst snd seq2] in *.
    assert (R : (forall x, In x (map (fun a => (attach_view a (rp_index p), a_getImageLayout a (e_separate e))) (filter has_transition l)) -> snd x <> L_UNDEFINED) /\
      even_uses (after_all d l1) (map (fun a => (attach_view a (rp_index p), a_getImageLayout a (e_separate e))) (filter has_transition l)) /\
      fold_left moved (map (fun a => (attach_view a (rp_index p), a_getImageLayout a (e_separate e))) (filter has_transition (a :: l))) d =
      fold_left moved (map (fun a => (attach_view a (rp_index p), a_getImageLayout a (e_separate e))) (filter has_transition l)) (if has_transition a then moved d (attach_view a (rp_index p), a_getImageLayout a (e_separate e)) else d)).
    { cbn [filter] in Hu, Ev |- *. destruct (has_transition a); cbn [map even_uses fold_left] in *.
      - split; [intros x Hx; apply Hu; right; exact Hx|]. split; [|reflexivity]. apply (alike_even _ (moved d (attach_view a (rp_index p), a_getImageLayout a (e_separate e)))); [apply alike_sym, C1|apply Ev].
      - split; [exact Hu|]. split; [|reflexivity]. apply (alike_even _ d); [apply alike_sym, C1|exact Ev]. }
    destruct R as (Hu' & Ev' & ->).
    destruct (IH c1 (after_all d l1) (fun b Hb => Hv b (or_intror Hb)) Hu' Ev' B1) as (A2 & B2 & C2).
    destruct (run_all (record_image e g p) l c1) as [c2 l2]. cbn [fst snd] in *. rewrite after_app. split; [apply legal_app; auto|]. split; [exact B2|].
    apply (alike_trans _ _ _ C2), alike_fold, C1.
Qed.

Lemma buffers_legal p l : forall c d, let x := run_all (record_buffer p) l c in
  all_legal d (snd x) /\ rc_images (fst x) = rc_images c /\ rc_implicit (fst x) = rc_implicit c.
Proof.
  induction l as [|b l IH]; intros c d; cbv zeta; [repeat split|]. rewrite run_all_cons.
  assert (E : all_legal d (snd (record_buffer p b c)) /\ rc_images (fst (record_buffer p b c)) = rc_images c /\ rc_implicit (fst (record_buffer p b c)) = rc_implicit c).
  { unfold record_buffer. destruct (andb _ _); [|repeat split]. unfold bufferBarrier. destruct (isClearableBuffer b).
    - cbn [seq2]. destruct (orb _ _); cbn [seq2 emit]; destruct (orb _ _); repeat split.
    - destruct (orb _ _); repeat split. }
  destruct (record_buffer p b c) as [c1 l1]. destruct E as (A & B & C). cbn [fst snd seq2] in *.
  destruct (IH c1 (after_all d l1)) as (A2 & B2 & C2). destruct (run_all (record_buffer p) l c1) as [c2 l2]. cbn [fst snd] in *.
  split; [apply legal_app; auto|]. split; congruence.
Qed.
Lemma funs_neutral i (l : list (rctx -> nat -> rctx * list cmd)) : (forall f, In f l -> neutral_fun f) -> forall c,
  let x := run_all (fun f c => f c i) l c in fst x = c /\ Forall neutral (snd x).
Proof.
  induction l as [|f l IH]; intros H c; cbv zeta; [split; [reflexivity|constructor]|]. rewrite run_all_cons.
  destruct (H f (or_introl eq_refl) c i) as [A B]. destruct (f c i) as [c1 l1]. cbn [fst snd] in *. subst c1. cbn [seq2].
  destruct (IH (fun f Hf => H f (or_intror Hf)) c) as [A2 B2]. destruct (run_all _ l c) as [c2 l2]. cbn [fst snd] in *. split; [exact A2|apply Forall_app; auto].
Qed.

Lemma fair_into p c d : fitting_pass e g V p -> fair c d -> (e_enabled e (rp_id p) = true -> even_pass e p d) ->
  let x := recordInto e g p c in all_legal d (snd x) /\ fair (fst x) (after_all d (snd x)).
Proof.
  intros (Hv & Hu & Hs & Hn & Hi & Hb) F He. cbv zeta. unfold recordInto. assert (Er : forall c, register_all p c = c) by (intro c0; unfold register_all; rewrite Hi; reflexivity).
  destruct (e_enabled e (rp_id p)); [|rewrite Er; cbn [fst snd]; split; [exact I|exact F]]. destruct (He eq_refl) as [Ev Et]. clear He.
  assert (Hv' : forall a, In a (rp_images p) -> V (attach_view a (rp_index p))) by (intros a Ha; apply Hv, (in_map (fun a => attach_view a (rp_index p))), Ha).
  destruct (fair_images p (rp_images p) c d Hv' Hu Ev F) as (A1 & B1 & C1). fold (asked e p) in C1.
  assert (Rd : ready e p (fold_left moved (asked e p) d)).
  { intros a Ha T _. apply (fold_in (asked e p) d Hs (attach_view a (rp_index p), a_getImageLayout a (e_separate e))). unfold asked. apply (in_map (fun a => (attach_view a (rp_index p), a_getImageLayout a (e_separate e)))), filter_In. auto. }
  cbn [seq2]. destruct (run_all (record_image e g p) (rp_images p) c) as [c1 l1]. cbn [fst snd] in *. cbn [seq2].
  destruct (buffers_legal p (rp_buffers p) c1 (after_all d l1)) as (A2 & B2 & C2). pose proof (buffers_after p (rp_buffers p) c1 (after_all d l1)) as D2.
  destruct (run_all (record_buffer p) (rp_buffers p) c1) as [c2 l2]. cbn [fst snd] in *. cbn [seq2].
  destruct (funs_neutral (rp_index p) (rp_pre p) (fun f Hf => Hn f (or_introl Hf)) c2) as [A3 B3].
  destruct (run_all _ (rp_pre p) c2) as [c3 l3]. cbn [fst snd] in *. subst c3. cbn [seq2].
  assert (F2 : fair c2 (after_all d l1)) by (apply (fair_same_images c1); assumption).
  specialize (Hb c2 (after_all d l1) (proj1 F2) (proj1 (proj2 F2)) (proj2 (proj2 F2)) (alike_ready e p _ _ (alike_sym _ _ C1) Rd) (alike_targets p _ _ (alike_sym _ _ C1) Et)).
  destruct (rp_record p c2 (rp_index p)) as [c4 l4]. destruct Hb as (A4 & B4 & C4 & D4). cbn [seq2].
  destruct (funs_neutral (rp_index p) (rp_post p) (fun f Hf => Hn f (or_intror Hf)) c4) as [A5 B5].
  destruct (run_all _ (rp_post p) c4) as [c5 l5]. cbn [fst snd] in *. subst c5. cbn [seq2 emit fst snd]. rewrite Er.
  cbn [app all_legal legal after after_all fold_left]. fold (after_all d).
  assert (Ea : forall d', after_all d' (((((l1 ++ l2) ++ l3) ++ l4) ++ l5) ++ [CTimerEnd (rp_id p); CEndBlock]) = after_all (after_all (after_all (after_all (after_all d' l1) l2) l3) l4) l5) by (intro d'; rewrite !after_app; reflexivity).
  change (fold_left after (((((l1 ++ l2) ++ l3) ++ l4) ++ l5) ++ [CTimerEnd (rp_id p); CEndBlock]) d) with (after_all d (((((l1 ++ l2) ++ l3) ++ l4) ++ l5) ++ [CTimerEnd (rp_id p); CEndBlock])).
  rewrite Ea, D2, (proj2 (neutral_all l3 B3 _)), (proj2 (neutral_all l5 B5 _)). split; [|exact (conj B4 (conj C4 D4))].
  split; [exact I|]. split; [exact I|]. rewrite !legal_app, !after_app, D2, (proj2 (neutral_all l3 B3 _)). 
  split; [|repeat split]. split; [|apply (neutral_all l5 B5)]. split; [|exact A4]. split; [|apply (neutral_all l3 B3)]. split; [exact A1|exact A2].
Qed.

Lemma fair_loop passes : forall c d, (forall p, In p passes -> fitting_pass e g V p) -> fair c d -> even_record e g passes c d ->
  let '(c', l, _) := record_loop e g passes c in all_legal d l /\ fair c' (after_all d l).
Proof.
  induction passes as [|p rest IH]; intros c d H F Ev; [split; [exact I|exact F]|]. cbn [record_loop even_record] in *. destruct Ev as [E1 E2].
  assert (F1 : fair (prepare e g p rest c) d) by (apply (fair_same_images c); [unfold prepare; destruct rest; reflexivity|unfold prepare; destruct rest; reflexivity|exact F]).
  destruct (fair_into p (prepare e g p rest c) d (H p (or_introl eq_refl)) F1 E1) as [A B].
  destruct (recordInto e g p (prepare e g p rest c)) as [c2 l1]. cbn [fst snd] in *.
  specialize (IH c2 (after_all d l1) (fun q Hq => H q (or_intror Hq)) B E2). destruct (record_loop e g rest c2) as [[c3 l2] tr]. destruct IH as [A2 B2].
  rewrite after_app. split; [apply legal_app; auto|exact B2].
Qed.
(* Where the body of a pass is in the commands. *)
Lemma fair_into_split p c d : fitting_pass e g V p -> fair c d -> e_enabled e (rp_id p) = true -> even_pass e p d ->
  exists before cb tail, snd (recordInto e g p c) = before ++ snd (rp_record p cb (rp_index p)) ++ tail /\ ready e p (after_all d before).
Proof.
  intros (Hv & Hu & Hs & Hn & _) F En [Ev _]. unfold recordInto. rewrite En.
  assert (Hv' : forall a, In a (rp_images p) -> V (attach_view a (rp_index p))) by (intros a Ha; apply Hv, (in_map (fun a => attach_view a (rp_index p))), Ha).
  destruct (fair_images p (rp_images p) c d Hv' Hu Ev F) as (_ & _ & C1). fold (asked e p) in C1.
  assert (Rd : ready e p (fold_left moved (asked e p) d)).
  { intros a Ha T _. apply (fold_in (asked e p) d Hs (attach_view a (rp_index p), a_getImageLayout a (e_separate e))). unfold asked. apply (in_map (fun a => (attach_view a (rp_index p), a_getImageLayout a (e_separate e)))), filter_In. auto. }
  cbn [seq2]. destruct (run_all (record_image e g p) (rp_images p) c) as [c1 l1]. cbn [fst snd] in *. cbn [seq2].
  pose proof (buffers_after p (rp_buffers p) c1 (after_all d l1)) as Ab. destruct (run_all (record_buffer p) (rp_buffers p) c1) as [c2 l2]. cbn [seq2 snd] in *.
  pose proof (funs_after (rp_index p) (rp_pre p) (fun f Hf => Hn f (or_introl Hf)) c2 (after_all d l1)) as Ap.
  destruct (run_all _ (rp_pre p) c2) as [c3 l3]. cbn [seq2 snd] in *.
  destruct (rp_record p c3 (rp_index p)) as [c4 l4] eqn:E4. cbn [seq2].
  destruct (run_all _ (rp_post p) c4) as [c5 l5]. cbn [seq2 emit snd].
  exists (CBeginBlock (rp_id p) :: CTimerBegin (rp_id p) :: l1 ++ l2 ++ l3), c3, (l5 ++ [CTimerEnd (rp_id p); CEndBlock]).
  rewrite E4. cbn [snd]. split.
  - cbn [app]. rewrite <- !app_assoc. reflexivity.
  - cbn [after_all fold_left after]. change (ready e p (after_all d (l1 ++ l2 ++ l3))). rewrite !after_app, Ab, Ap. apply (alike_ready e p _ _ (alike_sym _ _ C1) Rd).
Qed.
Lemma fair_loop_split p : e_enabled e (rp_id p) = true -> forall passes1 passes2 c d, (forall q, In q (passes1 ++ p :: passes2) -> fitting_pass e g V q) -> fair c d ->
  even_record e g (passes1 ++ p :: passes2) c d ->
  exists before cb tail, snd (fst (record_loop e g (passes1 ++ p :: passes2) c)) = before ++ snd (rp_record p cb (rp_index p)) ++ tail /\ ready e p (after_all d before).
Proof.
  intros En. induction passes1 as [|q passes1 IH]; intros passes2 c d H F Ev; cbn [app record_loop even_record] in *.
  - assert (F1 : fair (prepare e g p passes2 c) d) by (apply (fair_same_images c); [unfold prepare; destruct passes2; reflexivity|unfold prepare; destruct passes2; reflexivity|exact F]).
    destruct (fair_into_split p (prepare e g p passes2 c) d (H p (or_introl eq_refl)) F1 En (proj1 Ev En)) as (b & cb & t & E & Rd).
    destruct (recordInto e g p (prepare e g p passes2 c)) as [c1 l1]. cbn [snd] in E. destruct (record_loop e g passes2 c1) as [[c2 l2] tr].
    exists b, cb, (t ++ l2). cbn [fst snd]. rewrite E, <- !app_assoc. auto.
  - set (rest := passes1 ++ p :: passes2) in *. destruct Ev as [E1 E2].
    assert (F1 : fair (prepare e g q rest c) d) by (apply (fair_same_images c); [unfold prepare; destruct rest; reflexivity|unfold prepare; destruct rest; reflexivity|exact F]).
    destruct (fair_into q (prepare e g q rest c) d (H q (or_introl eq_refl)) F1 E1) as [A B].
    destruct (recordInto e g q (prepare e g q rest c)) as [c1 l1]. cbn [fst snd] in *.
    destruct (IH passes2 c1 (after_all d l1) (fun x Hx => H x (or_intror Hx)) B E2) as (b & cb & t & E & Rd).
    fold rest in E. destruct (record_loop e g rest c1) as [[c2 l2] tr]. cbn [fst snd] in *.
    exists (l1 ++ b), cb, t. rewrite E, <- !app_assoc. split; [reflexivity|]. rewrite after_app. exact Rd.
Qed.
(* What is left in the graph after a recording is true too. *)
Lemma fair_graph deps passes d : (forall p, In p passes -> fitting_pass e g V p) ->
  let start := start_context e deps passes in
  parts_true g V start d -> never_undefined (rc_images start) -> even_record e g passes start d ->
  let '(g', l, _) := record_graph e g deps passes in
  all_legal d l /\ never_undefined (rc_images (g_final g')) /\ g_inputs g' = g_inputs g /\
  forall v layer mip, V v -> in_range (v_range v) layer mip ->
    part_known (rc_images (g_final g')) (v_image v) layer mip = L_UNDEFINED \/ after_all d l (i_id (v_image v)) layer mip = part_known (rc_images (g_final g')) (v_image v) layer mip.
Proof.
  cbv zeta. intros H P C Ev. unfold record_graph.
  pose proof (fair_loop passes (start_context e deps passes) d H (conj P (conj C (start_implicit e deps passes))) Ev) as L.
  destruct (record_loop e g passes (start_context e deps passes)) as [[c l] tr]. destruct L as [A (P' & C' & _)]. cbn [g_final g_inputs].
  split; [exact A|]. split; [exact C'|]. split; [reflexivity|]. intros v layer mip Hv R. destruct (V_bounds V HV v layer mip Hv R) as [Hl Hm]. rewrite get_part by assumption.
  destruct (htracked (rc_images c) (i_id (v_image v)) layer mip) as [s|] eqn:T; [right|left; reflexivity]. apply (part_real g V HV c _ v layer mip s); assumption.
Qed.
End Pass.

(* Frames one after the other. *)
Lemma fair_frames (V : view -> Prop) : (forall v, V v -> view_ok v) -> forall l g d, never_undefined (g_inputs g) ->
  (forall v layer mip, V v -> in_range (v_range v) layer mip ->
     part_known (rc_images (g_final g)) (v_image v) layer mip = L_UNDEFINED \/ d (i_id (v_image v)) layer mip = part_known (rc_images (g_final g)) (v_image v) layer mip) ->
  even_frames V g d l -> frames_legal g l.
Proof.
  intro HV. induction l as [|f rest IH]; intros g d HI Hf H; [exact I|]. cbn [even_frames frames_legal] in *. destruct H as (Hp & Hn & Hs & Ev & Hr).
  assert (P : parts_true g V (start_context (fr_env f) (fr_deps f) (fr_passes f)) (fr_start f)).
  { intros v layer mip Hv R. destruct (V_bounds V HV v layer mip Hv R) as [Hl Hm]. specialize (Hs v layer mip Hv R). specialize (Hf v layer mip Hv R).
    rewrite told_spec by assumption. cbv zeta in Hs. rewrite !get_part in Hs by assumption. rewrite get_part in Hf by assumption. destruct Hs as (S1 & S2 & S3). unfold first_known.
    destruct (N.eqb_spec (lay (htracked (rc_images (start_context (fr_env f) (fr_deps f) (fr_passes f))) (i_id (v_image v)) layer mip)) L_UNDEFINED) as [E1|E1]; [|right; apply S1, E1].
    destruct (N.eqb_spec (lay (htracked (g_inputs g) (i_id (v_image v)) layer mip)) L_UNDEFINED) as [E2|E2]; [|right; apply S2; assumption].
    destruct Hf as [Z|Z]; [left; exact Z|right]. rewrite S3 by assumption. exact Z. }
  pose proof (fair_graph (fr_env f) g V HV HI (fr_deps f) (fr_passes f) (fr_start f) Hp P Hn Ev) as G.
  destruct (record_graph (fr_env f) g (fr_deps f) (fr_passes f)) as [[g' cmds] tr]. destruct G as (A & B & C & D).
  split; [exact A|]. apply (IH g' (after_all (fr_start f) cmds)); [rewrite C; exact HI|exact D|exact Hr].
Qed.
