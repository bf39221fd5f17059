(* Views that overlap: the bodies of the passes. *)
From Verif Require Import Spec_Overlap Proof_Layout Proof_Record Proof_Run2 Proof_Run3 Proof_Device Proof_Device2 Proof_Device3 Proof_Device4 Proof_Overlap Proof_Overlap2.
From Coq Require Import PeanoNat.
Local Open Scope N_scope.

Section Bodies.
Context (e : env) (g : rgraph) (V : view -> Prop) (HV : forall v, V v -> view_ok v) (HI : never_undefined (g_inputs g)).
Local Notation fair := (fair_ctx g V).
Lemma parts_of_fair p : (forall c d, fair c d -> ready e p d -> even_targets p d ->
    all_legal d (snd (rp_record p c (rp_index p))) /\ fair (fst (rp_record p c (rp_index p))) (after_all d (snd (rp_record p c (rp_index p))))) -> sound_parts e g V p.
Proof.
  intros H c d P C I0 R T. specialize (H c d (conj P (conj C I0)) R T). destruct (rp_record p c (rp_index p)) as [c' l]. destruct H as (A & P' & C' & I'). auto.
Qed.
Lemma parts_neutral p : neutral_fun (rp_record p) -> sound_parts e g V p.
Proof.
  intro H. apply parts_of_fair. intros c d F _ _. destruct (H c (rp_index p)) as [A B]. destruct (rp_record p c (rp_index p)) as [c' l]. cbn [fst snd] in *. subst c'.
  destruct (neutral_all l B d) as [L E]. rewrite E. auto.
Qed.
Lemma parts_one p x : (forall c, rp_record p c (rp_index p) = (c, [x])) -> (forall d, after d x = d) -> (forall d, ready e p d -> legal d x) -> sound_parts e g V p.
Proof.
  intros E A L. apply parts_of_fair. intros c d F R _. rewrite E. cbn [fst snd all_legal after_all fold_left]. rewrite A. split; [split; [apply L, R|exact I]|exact F].
Qed.
Lemma fair_copies size final : forall views c d, fair c d -> (forall v, In v views -> V v) -> pairwise separate_views views ->
  (forall n v, nth_error views n = Some v -> view_in d v (if Nat.even n then L_TRANSFER_SRC else L_TRANSFER_DST)) ->
  let x := image_copies e size final views c in all_legal d (snd x) /\ fair (fst x) (after_all d (snd x)).
Proof.
  fix IH 1. intros [|s [|t rest]] c d F Hv Hp Hr; cbv zeta; try (split; [exact I|exact F]).
  cbn [image_copies]. assert (Vs : V s) by (apply Hv; left; reflexivity). assert (Vt : V t) by (apply Hv; right; left; reflexivity).
  inversion Hp as [|? ? Ps Hp1]; subst. inversion Hp1 as [|? ? Pt Hp2]; subst.
  pose proof (Hr 0%nat s eq_refl) as Rs. pose proof (Hr 1%nat t eq_refl) as Rt. cbn [Nat.even] in Rs, Rt.
  set (x := CCopyRegion _ _ _ _ _ _ _ _ _).
  assert (Lx : legal d x) by (split; (split; [left; reflexivity|]); apply sub_in; try assumption; apply HV; assumption).
  assert (FB : all_legal d (snd (final_barrier e c t final)) /\ fair (fst (final_barrier e c t final)) (after_all d (snd (final_barrier e c t final))) /\
    forall w k, separate_views w t -> view_in d w k -> view_in (after_all d (snd (final_barrier e c t final))) w k).
  { unfold final_barrier. destruct (N.eqb_spec final L_UNDEFINED) as [E|E]; [split; [exact I|split; [exact F|auto]]|]. unfold barrier_to.
    destruct (fair_barrier g V HV (e_separate e) c d t L_UNDEFINED (makeLayoutState final) L_TRANSFER_DST Vt F Rt (or_introl eq_refl) E) as (A & B & C).
    split; [exact A|]. split; [exact C|]. intros w k S H layer mip R. rewrite B. unfold put. rewrite separate_out by assumption. apply H, R. }
  cbn [seq2]. destruct (final_barrier e c t final) as [c2 l2]. cbn [fst snd] in FB. destruct FB as (A & B & K). cbn [seq2].
  specialize (IH rest c2 (after_all d l2) B (fun v H => Hv v (or_intror (or_intror H))) Hp2).
  assert (Hr2 : forall n v, nth_error rest n = Some v -> view_in (after_all d l2) v (if Nat.even n then L_TRANSFER_SRC else L_TRANSFER_DST)).
  { intros n v H. apply K; [|apply (Hr (S (S n)) v H)]. apply (Pt v (nth_error_In _ _ H)). }
  specialize (IH Hr2). cbv zeta in IH. destruct (image_copies e size final rest c2) as [c3 l3]. cbn [fst snd] in *. destruct IH as [A3 B3].
  cbn [app all_legal after_all fold_left]. change (after d x) with d. change (fold_left after (l2 ++ l3) d) with (after_all d (l2 ++ l3)). rewrite after_app.
  split; [split; [exact Lx|apply legal_app; auto]|exact B3].
Qed.

(* Render passes. *)
Definition hits (v : view) (i layer mip : N) : bool := andb (N.eqb (i_id (v_image v)) i) (in_rangeb (v_range v) layer mip).
Lemma hits_separate v w i layer mip : separate_views v w -> hits v i layer mip = true -> hits w i layer mip = true -> False.
Proof.
  unfold hits. intros S H K. apply andb_prop in H. apply andb_prop in K. destruct H as [H1 H2], K as [K1 K2]. apply N.eqb_eq in H1, K1. apply in_rangeb_spec in H2, K2.
  destruct S as [S|S]; [congruence|]. exact (S layer mip H2 K2).
Qed.
Lemma sets_tracked (l : list (view * lstate)) i layer mip : (forall x, In x l -> view_ok (fst x)) -> forall c,
  let c' := fold_left (fun c x => set_view c (fst x) (snd x)) l c in
  ((forall x, In x l -> hits (fst x) i layer mip = false) /\ htracked (rc_images c') i layer mip = htracked (rc_images c) i layer mip) \/
  (exists x, In x l /\ hits (fst x) i layer mip = true /\ htracked (rc_images c') i layer mip = Some (snd x)).
Proof.
  induction l as [|x l IH]; intros Ok c; cbv zeta; [left; split; [intros x []|reflexivity]|]. cbn [fold_left].
  assert (E : htracked (rc_images (set_view c (fst x) (snd x))) i layer mip = if hits (fst x) i layer mip then Some (snd x) else htracked (rc_images c) i layer mip) by (apply set_tracked, Ok; left; reflexivity).
  destruct (IH (fun y Hy => Ok y (or_intror Hy)) (set_view c (fst x) (snd x))) as [[A B]|(y & Hy & A & B)]; [|right; exists y; auto using in_cons].
  rewrite B, E. destruct (hits (fst x) i layer mip) eqn:Hx; [right; exists x; auto using in_eq|left]. split; [|reflexivity]. intros y [<-|Hy]; [exact Hx|apply A, Hy].
Qed.
Lemma puts_real (l : list (view * N)) i layer mip : forall d,
  let d' := fold_left (fun d x => put d (i_id (v_image (fst x))) (v_range (fst x)) (snd x)) l d in
  ((forall x, In x l -> hits (fst x) i layer mip = false) /\ d' i layer mip = d i layer mip) \/ (exists x, In x l /\ hits (fst x) i layer mip = true /\ d' i layer mip = snd x).
Proof.
  induction l as [|x l IH]; intro d; cbv zeta; [left; split; [intros x []|reflexivity]|]. cbn [fold_left].
  destruct (IH (put d (i_id (v_image (fst x))) (v_range (fst x)) (snd x))) as [[A B]|(y & Hy & A & B)]; [|right; exists y; auto using in_cons].
  assert (E : put d (i_id (v_image (fst x))) (v_range (fst x)) (snd x) i layer mip = if hits (fst x) i layer mip then snd x else d i layer mip) by reflexivity.
  rewrite B, E. destruct (hits (fst x) i layer mip) eqn:Hx; [right; exists x; auto using in_eq|left]. split; [|reflexivity]. intros y [<-|Hy]; [exact Hx|apply A, Hy].
Qed.
Lemma current_tracked c v i layer mip : view_ok v -> hits v i layer mip = false ->
  let x := getCurrentLayoutState g c (v_image v) (v_type v) (v_range v) in htracked (rc_images (fst x)) i layer mip = htracked (rc_images c) i layer mip.
Proof.
  intros Ok H. cbv zeta. unfold getCurrentLayoutState.
  destruct (negb _); [reflexivity|]. destruct (negb _); [cbn [fst]; rewrite set_tracked by exact Ok; fold (hits v i layer mip); rewrite H; reflexivity|].
  destruct (negb _); [cbn [fst]; rewrite set_tracked by exact Ok; fold (hits v i layer mip); rewrite H; reflexivity|reflexivity].
Qed.
Lemma builds_tracked p index i layer mip l : (forall a, In a l -> isTarget a = true -> view_ok (attach_view a index) /\ v_source (attach_view a index) = [] /\ hits (attach_view a index) i layer mip = false) ->
  forall b, htracked (rc_images (rb_ctx (fold_left (target_step e g p index) l b))) i layer mip = htracked (rc_images (rb_ctx b)) i layer mip /\
            rc_implicit (rb_ctx (fold_left (target_step e g p index) l b)) = rc_implicit (rb_ctx b).
Proof.
  induction l as [|a l IH]; intros H b; [split; reflexivity|]. cbn [fold_left]. destruct (IH (fun x Hx => H x (or_intror Hx)) (target_step e g p index b a)) as [-> ->]. clear IH.
  unfold target_step. destruct (isTarget a) eqn:T; [|split; reflexivity]. destruct (H a (or_introl eq_refl) T) as (Ok & Src & Hh). set (v := attach_view a index) in *.
  cbv zeta. rewrite (resolve_plain v index Src). pose proof (current_tracked (rb_ctx b) v i layer mip Ok Hh) as Ct. cbv zeta in Ct.
  destruct (getCurrentLayoutState g (rb_ctx b) (v_image v) (v_type v) (v_range v)) as [c1 cur] eqn:E. cbn [fst] in Ct.
  destruct (current_known g (rb_ctx b) v Ok c1 cur E) as (I1 & _).
  unfold addAttach. rewrite Src. cbn [fold_left with_ctx rb_ctx rb_descs rb_entries rb_clear rb_blend rb_colours rb_depth].
  assert (Q : forall s, htracked (rc_images (set_view c1 v s)) i layer mip = htracked (rc_images (rb_ctx b)) i layer mip /\ rc_implicit (set_view c1 v s) = rc_implicit (rb_ctx b)).
  { intro s. unfold set_view. rewrite set_tracked by exact Ok. fold (hits v i layer mip). rewrite Hh. split; [exact Ct|exact I1]. }
  destruct (orb (isDepthAttach a) (isStencilAttach a)); cbn [with_depth with_colour rb_ctx]; apply Q.
Qed.

Definition target_of (p : rpass) (v : view) : Prop := exists a, In a (rp_images p) /\ isTarget a = true /\ v = attach_view a (rp_index p).
Lemma pairwise_any {A} (R : A -> A -> Prop) l : pairwise R l -> forall a b, In a l -> In b l -> a = b \/ R a b.
Proof.
  induction 1 as [|x l H P IH]; intros a b Ha Hb; [destruct Ha|]. destruct Ha as [<-|Ha], Hb as [<-|Hb]; [left; reflexivity|right; apply (H b Hb)|right; apply (H a Ha)|apply IH; assumption].
Qed.
Lemma plain_regions p : plain_targets e p -> regions (target_of p).
Proof.
  intros (A & B & C). split.
  - intros v (a & Ha & Ta & ->). destruct (A a Ha) as (X & _ & Y). split; [apply (Y _ _ X); left; reflexivity|apply B; assumption].
  - intros v w (a & Ha & Ta & ->) (b & Hb & Tb & ->).
    destruct (pairwise_any _ _ C a b) as [->|S]; [apply filter_In; auto|apply filter_In; auto|left; apply same_refl|right; exact S].
Qed.
Lemma plain_target_pass p : plain_targets e p -> target_pass g (target_of p) e p.
Proof.
  intros (A & B & C).
  assert (Dec : forall v s, In (v, s) (declared (e_separate e) p) -> view_ok v /\ ls_layout s <> L_UNDEFINED).
  { intros v s H. unfold declared in H. apply in_flat_map in H. destruct H as (a & Ha & H). apply in_flat_map in H. destruct H as (w & Hw & H).
    destruct (A a Ha) as (_ & L & Y). apply in_map_iff in H. destruct H as (u & E & Hu). injection E as <- <-. split; [|exact L]. apply (Y w u Hw).
    unfold resolve_all in Hu. destruct (v_source w); [destruct Hu as [<-|[]]; left; reflexivity|right; exact Hu]. }
  split; [|split; [exact C|]].
  - intros a Ha Ta. exists a. auto.
  - intros a Ha Ta c. destruct (A a Ha) as (X & L & Y). apply (next_not_undefined e g c p (attach_view a (rp_index p))
      (mk_lstate (a_getImageLayout a (e_separate e)) (a_getAccessMask a) (a_getPipelineStageFlags a (rp_compute p)))).
    + intros v s H. destruct (Dec v s H) as [[V1 V2] _]. rewrite virtual_not3d by exact V2. exact V1.
    + unfold declared. apply in_flat_map. exists a. split; [exact Ha|]. apply in_flat_map. exists (attach_view a (rp_index p)). split; [exact X|].
      unfold resolve_all. rewrite (B a Ha Ta). left. reflexivity.
    + intros w s H. apply (Dec w s H).
Qed.
Lemma parts_render p body t : plain_targets e p -> (forall v, In v (pass_views p) -> V v) -> neutral_fun body -> holds V p t ->
  (rd_renderPass (pass_data t (rp_index p)) = 0 \/ forall x, In x (rd_entries (pass_data t (rp_index p))) -> ls_layout (en_input x) = L_UNDEFINED) ->
  sound_parts e g V (render_pass e g p body t).
Proof.
  intros Hp Hv Hb Ht Hc. apply parts_of_fair. intros c d F _ Et. cbn [render_pass rp_record rp_index].
  assert (Ev : forall a, In a (rp_images p) -> isTarget a = true -> one_layout d (attach_view a (rp_index p))) by exact Et.
  pose proof (plain_regions p Hp) as HF. pose proof (plain_target_pass p Hp) as TP.
  assert (R : right g (target_of p) c d).
  { intros v (a & Ha & Ta & ->). destruct (Ev a Ha Ta) as [k K].
    assert (Va : V (attach_view a (rp_index p))) by (apply Hv, (in_map (fun a => attach_view a (rp_index p))), Ha).
    destruct (said_real g V HV HI c d _ k (proj1 F) (proj1 (proj2 F)) Va K) as [E|E]; [left; exact E|right]. rewrite E. exact K. }
  assert (Q : snd (tg_initialise e g p (rp_index p) t c) = true \/
   forall x, In x (rd_entries (pass_data t (rp_index p))) -> ls_layout (en_input x) = L_UNDEFINED \/ known_layout c (en_view x) <> L_UNDEFINED).
  { destruct Hc as [Hc|Hc]; [left|right; intros x Hx; left; apply Hc, Hx]. unfold tg_initialise. rewrite Hc. reflexivity. }
  pose proof (good_tg_record g (target_of p) HF e p body t c d Hb TP Ht R Q) as G.
  assert (Hlen : (rp_index p < length (tg_passes t))%nat) by apply Ht.
  destruct (tg_record e g p (rp_index p) body t c) as [[t' c'] l] eqn:Er. destruct G as (A & _ & Im & Es & At). cbn [fst snd].
  split; [exact A|]. set (i := rp_index p) in *. set (es := rd_entries (pass_data t' i)) in *.
  assert (Src : forall x, In x es -> exists a, In a (rp_images p) /\ isTarget a = true /\ en_view x = attach_view a i /\ view_ok (en_view x) /\ v_source (en_view x) = [] /\ ls_layout (en_output x) <> L_UNDEFINED).
  { intros x Hx. rewrite At in Es. assert (X : exists a, In a (filter isTarget (rp_images p)) /\ en_view x = attach_view a i /\ ls_layout (en_output x) <> L_UNDEFINED).
    { clear - Es Hx. induction Es as [|a y l' es' H0 H IH]; [destruct Hx|]. destruct Hx as [<-|Hx]; [exists a; split; [left; reflexivity|exact H0]|].
      destruct (IH Hx) as (b & Hb & E). exists b. split; [right; exact Hb|exact E]. }
    destruct X as (a & Ha & E & U). apply filter_In in Ha. destruct Ha as [Ha Ta]. exists a. rewrite E. destruct (proj1 HF (attach_view a i)) as [X Y]; [exists a; auto|]. auto 10. }
  (* the recording of the target, step by step *)
  unfold tg_record in Er. destruct (tg_initialise e g p i t c) as [[t1 c1] made] eqn:Ei.
  assert (L1 : (i < length (tg_passes t1))%nat).
  { unfold tg_initialise in Ei. destruct (andb _ _); injection Ei as <- _ _; [exact Hlen|]. cbn [tg_passes]. rewrite set_nth_length. exact Hlen. }
  destruct (framebuffer_data i t1 L1) as (D1 & D2 & D3 & D4 & D5 & D6).
  unfold tg_begin in Er. destruct (tg_framebuffer i t1) as [t2 fb]. cbn [fst] in D1, D2, D3, D4, D5, D6. cbv beta iota zeta in Er.
  change (pass_data (tg_emit t2 [TBegin (rd_renderPass (pass_data t2 i)) fb (rd_area (pass_data t2 i)) (rd_clear (pass_data t2 i))]) i) with (pass_data t2 i) in Er.
  set (c2 := fold_left _ (rd_entries (pass_data t1 i)) c1) in Er. destruct (Hb c2 i) as [B1 B2]. destruct (body c2 i) as [cb lb]. cbn [fst snd] in B1, B2. subst cb.
  unfold tg_end in Er. change (pass_data (tg_emit t2 [TBegin (rd_renderPass (pass_data t2 i)) fb (rd_area (pass_data t2 i)) (rd_clear (pass_data t2 i))]) i) with (pass_data t2 i) in Er.
  injection Er as Et' Ec El.
  assert (Ees : es = rd_entries (pass_data t1 i)) by (unfold es; rewrite <- Et'; change (rd_entries (pass_data t2 i) = rd_entries (pass_data t1 i)); exact D2).
  assert (Eat : rd_attachments (pass_data t' i) = rd_attachments (pass_data t2 i)) by (rewrite <- Et'; reflexivity).
  rewrite D2, <- Ees in Ec. unfold c2 in Ec. rewrite <- Ees in Ec.
  assert (Fold : forall (st : entry -> lstate) c0, fold_left (fun c x => set_view c (resolveView (en_view x) i) (st x)) es c0 =
     fold_left (fun c x => set_view c (fst x) (snd x)) (map (fun x => (en_view x, st x)) es) c0).
  { intros st. assert (G : forall es', (forall x, In x es' -> In x es) -> forall c0, fold_left (fun c x => set_view c (resolveView (en_view x) i) (st x)) es' c0 =
      fold_left (fun c x => set_view c (fst x) (snd x)) (map (fun x => (en_view x, st x)) es') c0).
    { induction es' as [|x es' IH]; intros Hsub c0; [reflexivity|]. cbn [fold_left map fst snd].
      destruct (Src x (Hsub x (or_introl eq_refl))) as (a & _ & _ & _ & _ & Sx & _). rewrite (resolve_plain _ i Sx). apply IH. intros y Hy. apply Hsub. right. exact Hy. }
    apply G. auto. }
  rewrite !Fold in Ec.
  assert (Ok : forall st : entry -> lstate, forall x, In x (map (fun x => (en_view x, st x)) es) -> view_ok (fst x)).
  { intros st x Hx. apply in_map_iff in Hx. destruct Hx as (y & <- & Hy). destruct (Src y Hy) as (a & _ & _ & _ & O & _). exact O. }
  destruct (neutral_all lb B2 d) as [_ Ab].
  assert (Ad : after_all d l = fold_left (fun d x => put d (i_id (v_image (fst x))) (v_range (fst x)) (snd x)) (map (fun x => (en_view x, ls_layout (en_output x))) es) d).
  { rewrite <- El. cbn [after_all fold_left after]. change (fold_left after (lb ++ [CEndRenderPass (begun (pass_data t2 i))]) d) with (after_all d (lb ++ [CEndRenderPass (begun (pass_data t2 i))])).
    rewrite after_app, Ab. cbn [after_all fold_left after]. unfold begun. rewrite D2, <- Ees, <- Eat. rewrite <- (combine_fst _ _ _ Es) at 2.
    generalize (combine es (rd_attachments (pass_data t' i))). intro l0. clear. revert d. induction l0 as [|[x a] r IH]; intro d0; [reflexivity|]. cbn [map fold_left fst snd]. apply IH. }
  assert (Step : forall im layer mip, (htracked (rc_images c') im layer mip = htracked (rc_images c) im layer mip /\ after_all d l im layer mip = d im layer mip) \/
    exists s, htracked (rc_images c') im layer mip = Some s /\ ls_layout s <> L_UNDEFINED /\ after_all d l im layer mip = ls_layout s).
  { intros im layer mip. rewrite Ad.
    destruct (puts_real (map (fun x => (en_view x, ls_layout (en_output x))) es) im layer mip d) as [[P1 P2]|(y & Hy & P1 & P2)].
    - assert (No : forall x, In x es -> hits (en_view x) im layer mip = false) by (intros x Hx; apply (P1 (en_view x, ls_layout (en_output x))), in_map_iff; exists x; auto).
      assert (No' : forall st : entry -> lstate, forall x, In x (map (fun x => (en_view x, st x)) es) -> hits (fst x) im layer mip = false) by (intros st x Hx; apply in_map_iff in Hx; destruct Hx as (z & <- & Hz); apply No, Hz).
      left. split; [|exact P2]. rewrite <- Ec.
      destruct (sets_tracked _ im layer mip (Ok en_output) (fold_left (fun c x => set_view c (fst x) (snd x)) (map (fun x => (en_view x, en_input x)) es) c1)) as [[_ T]|(x & Hx & T & _)]; [|rewrite (No' en_output x Hx) in T; discriminate].
      rewrite T. destruct (sets_tracked _ im layer mip (Ok en_input) c1) as [[_ T2]|(x & Hx & T2 & _)]; [|rewrite (No' en_input x Hx) in T2; discriminate].
      rewrite T2. unfold tg_initialise in Ei. destruct (andb _ _); [injection Ei as _ <- _; reflexivity|]. injection Ei as _ <- _. unfold build_targets.
      match goal with |- htracked (rc_images (rb_ctx (fold_left _ _ ?b0))) _ _ _ = _ => enough (Q0 : _) by exact (proj1 (builds_tracked p i im layer mip (rp_images p) Q0 b0)) end.
      intros a Ha Ta. destruct (proj1 HF (attach_view a i)) as [X Y]; [exists a; auto|]. split; [exact X|]. split; [exact Y|].
      assert (Z : exists x, In x es /\ en_view x = attach_view a i).
      { rewrite At in Es. assert (Ia : In a (filter isTarget (rp_images p))) by (apply filter_In; auto). clear - Es Ia.
        induction Es as [|b y l' es' H0 H IH]; [destruct Ia|]. destruct Ia as [->|Ia]; [exists y; split; [left; reflexivity|apply H0]|].
        destruct (IH Ia) as (x & Hx & E). exists x. split; [right; exact Hx|exact E]. }
      destruct Z as (x & Hx & <-). apply No, Hx.
    - right. apply in_map_iff in Hy. destruct Hy as (x & <- & Hx). cbn [fst snd] in P1, P2.
      rewrite <- Ec. destruct (sets_tracked _ im layer mip (Ok en_output) (fold_left (fun c x => set_view c (fst x) (snd x)) (map (fun x => (en_view x, en_input x)) es) c1)) as [[T _]|(z & Hz & T1 & T2)].
      { exfalso. assert (T' : hits (en_view x) im layer mip = false) by (apply (T (en_view x, en_output x)), in_map_iff; exists x; auto). congruence. }
      apply in_map_iff in Hz. destruct Hz as (z' & <- & Hz). cbn [fst snd] in T1, T2. exists (en_output z'). split; [exact T2|].
      assert (Exz : x = z' \/ separate_views (en_view x) (en_view z')).
      { rewrite At in Es. destruct Hp as (_ & _ & Ps). clear - Es Ps Hx Hz. fold i in Ps. revert Ps Hx Hz. induction Es as [|a y l' es' H0 H IH]; intros Ps Hx Hz; [destruct Hx|].
        inversion Ps as [|? ? Pa Ps']; subst.
        assert (Back : forall u, In u es' -> exists b, In b l' /\ en_view u = attach_view b i).
        { clear - H. induction H as [|b w l'' es'' K0 K IH']; intros u Hu; [destruct Hu|]. destruct Hu as [<-|Hu]; [exists b; split; [left; reflexivity|apply K0]|]. destruct (IH' u Hu) as (b' & ? & ?). exists b'. split; [right; assumption|assumption]. }
        destruct Hx as [<-|Hx], Hz as [<-|Hz].
        - left. reflexivity.
        - right. destruct (Back _ Hz) as (b & Hb & Eb). rewrite Eb, (proj1 H0). apply (Pa b Hb).
        - right. destruct (Back _ Hx) as (b & Hb & Eb). rewrite Eb, (proj1 H0). apply (Pa b Hb).
        - apply IH; assumption. }
      destruct Exz as [<-|S]; [|exfalso; exact (hits_separate _ _ _ _ _ S P1 T1)]. destruct (Src x Hx) as (_ & _ & _ & _ & _ & _ & U). auto. }
  split; [|split].
  - apply (parts_set g V HV c c' d); [exact Step|apply F].
  - apply never_of_tracked. intros im layer mip s E. destruct (Step im layer mip) as [[T _]|(s' & T & U & _)]; [rewrite T in E; apply (never_tracked _ _ _ _ _ (proj1 (proj2 F)) E)|]. rewrite T in E. injection E as <-. exact U.
  - rewrite Im. apply F.
Qed.
End Bodies.
