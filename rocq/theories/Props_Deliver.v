(* C107: what a pass wrote in an image is received by a pass that depends on it, in a compiled graph. *)
From Verif Require Import Model_Order Spec_Sort Spec_Deliver Proof_Sort Proof_Layout Proof_Record Proof_Run2 Proof_Run3 Proof_Device Proof_Device2 Proof_Device3 Proof_Device4 Proof_Device5 Proof_Sync Proof_Sync2 Proof_Flow Proof_Flow2 Proof_Flow3 Proof_Deliver Proof_Attach
  Props_Record Props_Attach Props_Sort Props_Order Props_Device Props_Sync.
From Verif Require Import Model_Sort Spec_Sort.
Local Open Scope N_scope.

Section Frame.
Context (e : env) (g : rgraph) (v : view) (Hv : view_ok v).
Context (Pi : plain_state (view_state (g_inputs g) v)) (Pf : plain_state (view_state (rc_images (g_final g)) v)).
Lemma deliver F d deps l0 p mid q l1 a b :
  let passes := l0 ++ p :: mid ++ q :: l1 in
  regions F -> sound_passes e g F passes -> (forall w, F w -> truthful g (start_context e deps passes) d w) ->
  (forall r, In r passes -> plain_pass v r) ->
  (forall r, In r mid -> e_enabled e (rp_id r) = true -> aside v r) ->
  (forall f, In f (rp_post p) \/ In f (rp_pre q) -> harmless v f) ->
  e_enabled e (rp_id p) = true -> e_enabled e (rp_id q) = true ->
  In a (rp_images p) -> same_region (attach_view a (rp_index p)) v -> has_transition a = true -> isClearableImage a = false ->
  In b (rp_images q) -> same_region (attach_view b (rp_index q)) v -> has_transition b = true -> isClearableImage b = false ->
  let la := a_getImageLayout a (e_separate e) in let lb := a_getImageLayout b (e_separate e) in
  la <> L_UNDEFINED -> lb <> L_UNDEFINED -> la <> lb ->
  plain_state (view_state (rc_images (start_context e deps passes)) v) ->
  exists before cp between cq tail,
    snd (fst (record_graph e g deps passes)) = before ++ snd (rp_record p cp (rp_index p)) ++ between ++ snd (rp_record q cq (rp_index q)) ++ tail /\
    ready e p (after_all d before) /\ ready e q (after_all d (before ++ snd (rp_record p cp (rp_index p)) ++ between)) /\
    Forall (preserves v) between /\
    In (CImageBarrier (i_id (v_image v)) (adaptRange (e_separate e) (i_format (v_image (attach_view b (rp_index q)))) (v_range (attach_view b (rp_index q)))) (getStageMask la) (getStageMask lb)
              (getAccessMask la) (getAccessMask lb) la lb) between.
Proof.
  intros passes HF Hs R0 Hall Hmid Hpq Ep Eq Ha Ra Ta Ca Hb Rb Tb Cb la lb La Lb Lab Ps.
  rewrite record_loop_graph. cbv zeta. cbn [fst snd].
  destruct (loop_bodies e g l0 p mid q l1 (start_context e deps passes) Ep Eq) as (tail & E). cbv zeta in E. fold passes in E. rewrite E. clear E.
  set (cs := start_context e deps passes) in *.
  assert (Hp : plain_pass v p) by (apply Hall, in_or_app; right; left; reflexivity).
  assert (Hq : plain_pass v q) by (apply Hall, in_or_app; right; right; apply in_or_app; right; left; reflexivity).
  assert (Q0 : calm_plain v cs) by (split; [apply start_implicit|exact Ps]).
  assert (Q1 : calm_plain v (reached e g l0 (p :: mid ++ q :: l1) cs)).
  { apply reached_inv; [intros; apply calm_prepare; assumption| |exact Q0]. intros r c Hr. apply calm_into; try assumption. apply Hall, in_or_app. left. exact Hr. }
  set (acts := flat_map rp_implicit passes) in *.
  assert (P0 : pend acts cs) by (intros x w u Hx; unfold cs in Hx; rewrite start_implicit in Hx; destruct Hx).
  pose proof (sound_all g F e passes Hs) as Sall. fold acts in Sall.
  destruct (reached_right e g F HF acts l0 (p :: mid ++ q :: l1) cs d) as [P1 R1]; [intros r Hr; apply Sall, in_or_app; left; exact Hr|exact P0|exact R0|].
  assert (Sp : sound_pass e g F acts p /\ incl (rp_implicit p) acts) by (apply Sall, in_or_app; right; left; reflexivity).
  assert (Sq : sound_pass e g F acts q /\ incl (rp_implicit q) acts) by (apply Sall, in_or_app; right; right; apply in_or_app; right; left; reflexivity).
  set (c0 := prepare e g p (mid ++ q :: l1) (reached e g l0 (p :: mid ++ q :: l1) cs)) in *.
  set (k0 := emitted e g l0 (p :: mid ++ q :: l1) cs) in *.
  assert (Q2 : calm_plain v c0) by (apply calm_prepare, Q1).
  assert (P2 : pend acts c0) by (unfold pend, c0; rewrite prepare_implicit; exact P1).
  assert (R2 : right g F c0 (after_all d k0)) by (apply prepare_right, R1). clearbody c0 k0. clear Q1 P1 R1.
  destruct (opening_state e g v Hv Pi Pf p a c0 Hp Q2 Ha Ra Ta Ca La) as (I3 & V3 & _). fold la in V3.
  pose proof (opening_ready e g F HF acts p c0 (after_all d k0) (proj1 Sp) P2 R2) as Rp. rewrite <- after_app in Rp.
  destruct (body_state v p (fst (opening e g p c0)) Hp) as [I4 V4]. rewrite I3 in I4. rewrite V3 in V4.
  pose proof (good_recordInto g F HF e acts p c0 (after_all d k0) (proj1 Sp) (proj2 Sp) P2 R2) as G.
  rewrite (into_opening e g p c0 Ep) in G. cbv zeta in G. destruct G as (_ & G2 & G3). cbn [fst snd] in G2, G3.
  pose proof Hp as (_ & _ & Hpf & _). pose proof Hq as (_ & _ & Hqf & _).
  assert (Z : Forall (preserves v) (snd (closing p (fst (rp_record p (fst (opening e g p c0)) (rp_index p)))))).
  { apply (flows_closing true g v p).
    - intros f Hf. apply harmless_careful; [apply Hpf; right; left; exact Hf|apply Hpq; left; exact Hf].
    - cbn [aware]. rewrite <- view_state_known, (proj2 (Hpf _ (or_intror (or_intror eq_refl)) _ _)), V3. exact La. }
  set (o := opening e g p c0) in *. set (bd := rp_record p (fst o) (rp_index p)) in *. set (z := closing p (fst bd)) in *. set (c1 := register_all p (fst z)) in *.
  (* in between *)
  set (J := fun c => rc_implicit c = [] /\ view_state (rc_images c) v = makeLayoutState la).
  assert (J1 : J c1) by (split; assumption).
  assert (Jp : forall r rest c, J c -> J (prepare e g r rest c)) by (intros r rest c [X Y]; unfold J; rewrite prepare_implicit', prepare_view; split; assumption).
  assert (Jk : forall c, J c -> known_layout c v = la) by (intros c [_ Y]; rewrite <- view_state_known, Y; reflexivity).
  assert (Jc : forall c, J c -> calm_plain v c) by (intros c [X Y]; split; [exact X|]; unfold plain; rewrite Y; right; reflexivity).
  assert (Ji : forall r c, In r mid -> J c -> J (fst (recordInto e g r c)) /\ Forall (preserves v) (snd (recordInto e g r c))).
  { intros r c Hr HJ. assert (Hr' : plain_pass v r) by (apply Hall, in_or_app; right; right; apply in_or_app; left; exact Hr).
    destruct (Jc c HJ) as [X Y]. pose proof (Jk c HJ) as K. split; [split|].
    - apply (into_plain e g v Hv Pi Pf r c Hr' X Y).
    - rewrite (into_apart e g v Hv Pi Pf r c Hr'); [apply HJ| |exact X|exact Y|rewrite K; exact La].
      intros En w Hw. apply (Hmid r Hr En), Hw.
    - apply (into_harmless e g v Hv r c Hr'); [apply Hmid, Hr|exact X|rewrite K; exact La]. }
  assert (J2 : J (reached e g mid (q :: l1) c1)) by (apply reached_inv; [intros; apply Jp; assumption|intros r c Hr HJ; apply Ji; assumption|exact J1]).
  assert (Em : Forall (preserves v) (emitted e g mid (q :: l1) c1)) by (apply (emitted_inv e g J); [intros; apply Jp; assumption|exact Ji|exact J1]).
  destruct (reached_right e g F HF acts mid (q :: l1) c1 (after_all (after_all d k0) (snd o ++ snd bd ++ snd z))) as [P3 R3];
    [intros r Hr; apply Sall, in_or_app; right; right; apply in_or_app; left; exact Hr|exact G3|exact G2|].
  set (c2 := prepare e g q l1 (reached e g mid (q :: l1) c1)) in *.
  assert (J3 : J c2) by (apply Jp, J2).
  assert (P4 : pend acts c2) by (unfold pend, c2; rewrite prepare_implicit; exact P3).
  pose proof (prepare_right g F e q l1 _ _ R3) as R4. fold c2 in R4.
  pose proof (opening_ready e g F HF acts q c2 _ (proj1 Sq) P4 R4) as Rq.
  destruct (opening_state e g v Hv Pi Pf q b c2 Hq (Jc c2 J3) Hb Rb Tb Cb Lb) as (_ & _ & B4). rewrite (Jk c2 J3) in B4. specialize (B4 La Lab). fold lb in B4.
  destruct (flows_opening true e g v Hv q c2) as (O1 & _ & _).
  { split; [|intros f Hf; apply harmless_careful; [apply Hqf; left; exact Hf|apply Hpq; right; exact Hf]].
    intros x Hx. cbv zeta. split; [exact (attach_ok v q Hq x Hx)|]. intros _ Rx. split; [|left; reflexivity].
    (* the only attachment of the consumer on the view is the one given *)
    assert (x = b); [|subst x; exact Cb]. destruct (attach_ok v q Hq x Hx) as [Ox _]. pose proof (proj1 (proj2 Hq)) as Pw. clear - Hx Hb Rx Rb Pw Ox.
    induction Pw as [|y l Hy Pw IH]; [destruct Hx|].
    assert (N : separate_views (attach_view x (rp_index q)) (attach_view b (rp_index q)) -> False).
    { intro S. destruct Ox as [(V1 & V2 & _) _]. destruct Rx as (X1 & X2 & X3 & X4 & X5), Rb as (Y1 & Y2 & Y3 & Y4 & Y5). destruct S as [S|S]; [congruence|].
      apply (S (r_layer (v_range (attach_view x (rp_index q)))) (r_mip (v_range (attach_view x (rp_index q))))); unfold in_range; lia. }
    destruct Hx as [->|Hx], Hb as [->|Hb]; [reflexivity| | |apply IH; assumption]; exfalso; apply N; apply Hy; assumption. }
  { apply calm_clean, J3. } { cbn [aware]. rewrite (Jk c2 J3). exact La. }
  eexists. exists (fst o). eexists. exists (fst (opening e g q c2)), tail. split; [reflexivity|]. fold bd.
  split; [exact Rp|]. split; [|split].
  - replace ((k0 ++ snd o) ++ snd bd ++ snd z ++ emitted e g mid (q :: l1) c1 ++ snd (opening e g q c2))
      with (k0 ++ (snd o ++ snd bd ++ snd z) ++ emitted e g mid (q :: l1) c1 ++ snd (opening e g q c2)) by (rewrite <- !app_assoc; reflexivity).
    rewrite 3 after_app. exact Rq.
  - rewrite !Forall_app. auto.
  - apply in_or_app. right. apply in_or_app. right. exact B4.
Qed.
End Frame.

Lemma start_images e deps l1 l2 : rc_images (start_context e deps l1) = rc_images (start_context e deps l2).
Proof. unfold start_context. destruct l1, l2; reflexivity. Qed.
Lemma start_truthful e g deps l1 l2 d v : truthful g (start_context e deps l1) d v -> truthful g (start_context e deps l2) d v.
Proof.
  unfold truthful. assert (E : said g (start_context e deps l1) v = said g (start_context e deps l2) v); [|rewrite E; auto].
  rewrite !said_spec. unfold known_layout, rc_getLayoutState. rewrite (start_images e deps l1 l2). reflexivity.
Qed.
Lemma no_implicit v (l : list rpass) : (forall r, In r l -> plain_pass v r) -> flat_map rp_implicit l = [].
Proof. induction l as [|x l IH]; intro H; [reflexivity|]. cbn. destruct (H x (or_introl eq_refl)) as (_ & _ & _ & ->). apply IH. intros r Hr. apply H. right. exact Hr. Qed.
Lemma before_once (l : list fpass) a b : NoDup l -> before l a b -> before l b a -> False.
Proof.
  intros N (a1 & a2 & a3 & Ea) (b1 & b2 & b3 & Eb). rewrite Ea in Eb.
  assert (S : forall (l1 l2 m1 m2 : list fpass) x, NoDup (l1 ++ x :: l2) -> l1 ++ x :: l2 = m1 ++ x :: m2 -> l1 = m1 /\ l2 = m2).
  { clear. induction l1 as [|y l1 IH]; intros l2 [|z m1] m2 x N E; cbn in *.
    - injection E as ->. auto.
    - injection E as -> E. exfalso. inversion N as [|? ? H1 _]. apply H1. rewrite E. apply in_or_app. right. left. reflexivity.
    - injection E as -> E. exfalso. inversion N as [|? ? H1 _]. apply H1. apply in_or_app. right. left. reflexivity.
    - injection E as -> E. inversion N as [|? ? _ H2]. destruct (IH l2 m1 m2 x H2 E). split; congruence. }
  destruct (S a1 (a2 ++ b :: a3) (b1 ++ b :: b2) b3 a) as [E1 E2]; [rewrite <- Ea; exact N|rewrite <- app_assoc; exact Eb|].
  rewrite Ea in N. subst a1 b3. clear - N. rewrite <- app_assoc in N. apply NoDup_remove_2 with (l := b1) in N. apply N. apply in_or_app. right. apply in_or_app. right. right.
  apply in_or_app. right. left. reflexivity.
Qed.

(** C107, for an image written by a transfer and read by a transfer or by sampling in a graphics pass: in a compiled graph where the
    consumer was declared to depend, directly or not, on the producer, and the other passes that use the image were declared before
    the producer or after the consumer, the commands between the two bodies keep the contents of the image and have a barrier on it, from the writes
    of the first to the accesses of the second; all the commands are legal, and the image is in the layout the consumer asked for when
    its body begins. *)
Theorem C107_delivered_to_dependent_pass_partial : forall create e g deps ps cmds p q v F d ma pa va ba wa fa xa mb pb vb bb wb fb xb,
  let a := declare_image ma pa va ba wa fa xa in
  let b := declare_image mb pb vb bb wb fb xb in
  let passes := map create ps in
  well_registered ps -> closed ps -> acyclic ps -> compile_and_record create e g deps ps = Ok cmds ->
  (* the consumer depends on the producer, both are enabled and declare the image *)
  clos_trans _ (needs ps) q p ->
  e_enabled e (rp_id (create p)) = true -> e_enabled e (rp_id (create q)) = true ->
  In a (rp_images (create p)) -> same_region (attach_view a (rp_index (create p))) v ->
  In b (rp_images (create q)) -> same_region (attach_view b (rp_index (create q))) v ->
  img_usage ma = Transfer -> img_writes ma = true -> (ma = addTransferInOutView -> fa = 0) ->
  transfer_or_sampled mb (rp_compute (create q)) -> img_writes mb = false ->
  (* the other passes: they do not touch the image, or the dependencies put them before the producer or after the consumer *)
  (forall r, In r ps -> e_enabled e (rp_id (create r)) = true -> r <> p -> r <> q ->
     aside v (create r) \/ clos_trans _ (needs ps) p r \/ clos_trans _ (needs ps) r q) ->
  (forall f, In f (rp_post (create p)) \/ In f (rp_pre (create q)) -> harmless v f) ->
  (* the images are used by regions, the passes tell the truth about what they use, and what is known before the recording is true *)
  regions F -> F v -> sound_passes e g F passes -> (forall r, In r passes -> plain_pass v r) ->
  (forall w, F w -> truthful g (start_context e deps []) d w) ->
  plain_state (view_state (g_inputs g) v) -> plain_state (view_state (rc_images (g_final g)) v) -> plain_state (view_state (rc_images (start_context e deps [])) v) ->
  all_legal d cmds /\
  exists before cp between cq tail,
    cmds = before ++ snd (rp_record (create p) cp (rp_index (create p))) ++ between ++ snd (rp_record (create q) cq (rp_index (create q))) ++ tail /\
    view_in (after_all d before) v (named_layout ma (e_separate e)) /\
    view_in (after_all d (before ++ snd (rp_record (create p) cp (rp_index (create p))) ++ between)) v (named_layout mb (e_separate e)) /\
    Forall (preserves v) between /\
    exists c, In c between /\ orders v S_TRANSFER A_TRANSFER_WRITE (use_stage (img_usage mb) (rp_compute (create q))) (announced mb) c.
Proof.
  intros create e g deps ps cmds p q v F d ma pa va ba wa fa xa mb pb vb bb wb fb xb a b passes W C A H Hn Ep Eq Ha Ra Hb Rb Ua Wa Fa Ub Wb Ho Hf HF Fv Hs Hall Tr Pi Pf Ps.
  unfold compile_and_record in H. destruct (compile_order ps) as [order| | |] eqn:Eo; try discriminate. injection H as <-.
  pose proof (compile_perm ps order W Eo) as Perm.
  assert (Nd : NoDup order).
  { apply (Permutation_NoDup Perm). destruct W as [Wr _ _]. apply (NoDup_map_inv _ _ Wr). }
  assert (Bf : forall x y, clos_trans _ (needs ps) x y -> before order y x).
  { pose proof (compile_topological ps order W C A Eo) as T. intros x y Hxy. induction Hxy as [x y Hxy|x y z H1 IH1 H2 IH2]; [apply T, Hxy|].
    (* z before y before x *)
    clear - IH1 IH2 Nd. destruct IH2 as (a1 & a2 & a3 & Ea). destruct IH1 as (b1 & b2 & b3 & Eb).
    assert (S : forall (l1 l2 m1 m2 : list fpass) x, NoDup (l1 ++ x :: l2) -> l1 ++ x :: l2 = m1 ++ x :: m2 -> l1 = m1 /\ l2 = m2).
    { clear. induction l1 as [|y l1 IH]; intros l2 [|z m1] m2 x N E; cbn in *.
      - injection E as ->. auto.
      - injection E as -> E. exfalso. inversion N as [|? ? H1 _]. apply H1. rewrite E. apply in_or_app. right. left. reflexivity.
      - injection E as -> E. exfalso. inversion N as [|? ? H1 _]. apply H1. apply in_or_app. right. left. reflexivity.
      - injection E as -> E. inversion N as [|? ? _ H2]. destruct (IH l2 m1 m2 x H2 E). split; congruence. }
    assert (Ea' : order = (a1 ++ z :: a2) ++ y :: a3) by (rewrite Ea, <- app_assoc; reflexivity).
    destruct (S (a1 ++ z :: a2) a3 b1 (b2 ++ x :: b3) y) as [_ X]; [rewrite <- Ea'; exact Nd|rewrite <- Ea'; exact Eb|].
    exists a1, (a2 ++ y :: b2), b3. rewrite Ea, X, <- app_assoc. reflexivity. }
  destruct (Bf q p Hn) as (l0 & mid & l1 & Eord).
  unfold runnable_passes. set (rs := map create order) in *.
  assert (Ers : rs = map create l0 ++ create p :: map create mid ++ create q :: map create l1) by (unfold rs; rewrite Eord, map_app; cbn [map]; rewrite map_app; reflexivity).
  assert (Iff : forall r, In r rs <-> In r passes).
  { intro r. unfold rs, passes. rewrite !in_map_iff. split; intros (x & E & Hx); exists x; (split; [exact E|]); [apply (Permutation_in x (Permutation_sym Perm) Hx)|apply (Permutation_in x Perm Hx)]. }
  assert (Hall' : forall r, In r rs -> plain_pass v r) by (intros r Hr; apply Hall, Iff, Hr).
  assert (Hs' : sound_passes e g F rs).
  { intros r Hr. rewrite (no_implicit v rs Hall'). pose proof (Hs r (proj1 (Iff r) Hr)) as X. unfold sound_passes in Hs. rewrite (no_implicit v passes Hall) in X. exact X. }
  assert (Tr' : forall w, F w -> truthful g (start_context e deps rs) d w) by (intros w Hw; apply (start_truthful e g deps []), Tr, Hw).
  split.
  { pose proof (graph_good e g F HF deps rs d Hs' Tr') as G. destruct (record_graph e g deps rs) as [[g' cm] tr]. exact (proj1 G). }
  assert (Fb : mb <> addTransferInOutView) by (intros ->; discriminate).
  assert (Ea : a = declare_image ma pa va ba wa 0 xa) by (unfold a; destruct ma; try reflexivity; rewrite (Fa eq_refl); reflexivity).
  assert (Eb : b = declare_image mb pb vb bb wb 0 xb) by (apply flag_irrelevant, Fb).
  assert (Vb : img_usage mb = Transfer \/ img_usage mb = Sampled) by (destruct Ub as [?|[? _]]; auto).
  assert (Ta : has_transition a = true /\ isClearableImage a = false) by (rewrite Ea; apply bare_transition; left; exact Ua).
  assert (Tb : has_transition b = true /\ isClearableImage b = false) by (rewrite Eb; apply bare_transition; exact Vb).
  assert (La : a_getImageLayout a (e_separate e) = named_layout ma (e_separate e)) by (apply C28_image_layout; rewrite Ua; discriminate).
  assert (Lb : a_getImageLayout b (e_separate e) = named_layout mb (e_separate e)) by (apply C28_image_layout; destruct Vb as [-> | ->]; discriminate).
  assert (Na : a_getImageLayout a (e_separate e) <> L_UNDEFINED) by (rewrite La; unfold named_layout; rewrite Ua, Wa; discriminate).
  assert (Nb : a_getImageLayout b (e_separate e) <> L_UNDEFINED) by (rewrite Lb; destruct Vb as [Q|Q]; unfold named_layout; rewrite Q; [destruct (img_writes mb)|]; discriminate).
  destruct (deliver e g v (proj1 (proj1 HF v Fv)) Pi Pf F d deps (map create l0) (create p) (map create mid) (create q) (map create l1) a b) as (before & cp & between & cq & tail & E & R1 & R2 & Pr & B); try rewrite <- Ers; try assumption; try apply Ta; try apply Tb.
  - intros r Hr. apply in_map_iff in Hr. destruct Hr as (x & <- & Hx). intro En.
    assert (Hx' : In x order) by (rewrite Eord; apply in_or_app; right; right; apply in_or_app; left; exact Hx).
    assert (B1 : before order p x) by (apply in_split in Hx; destruct Hx as (m1 & m2 & ->); exists l0, m1, (m2 ++ q :: l1); rewrite Eord, <- app_assoc; reflexivity).
    assert (B2 : before order x q) by (apply in_split in Hx; destruct Hx as (m1 & m2 & ->); exists (l0 ++ p :: m1), m2, l1; rewrite Eord, <- !app_assoc; cbn [app]; rewrite <- ?app_assoc; reflexivity).
    destruct (Ho x) as [X|[X|X]].
    + apply (Permutation_in x (Permutation_sym Perm) Hx').
    + exact En.
    + intros ->. apply (before_once order p p Nd); exact B1.
    + intros ->. apply (before_once order q q Nd); exact B2.
    + exact X.
    + exfalso. apply (before_once order p x Nd B1). apply Bf, X.
    + exfalso. apply (before_once order x q Nd B2). apply Bf, X.
  - rewrite La, Lb. clear - Ua Wa Ub Wb. destruct ma; try discriminate; destruct mb; try discriminate; destruct Ub as [Q|[Q _]]; try discriminate.
  - rewrite (start_images e deps rs []). exact Ps.
  - assert (In_v : forall x l d0, same_region x v -> view_in d0 x l -> view_in d0 v l).
    { intros x l d0 (S0 & S1 & S2 & S3 & S4) Y layer mip R. rewrite <- S0. apply Y. unfold in_range in *. rewrite S1, S2, S3, S4. exact R. }
    exists before, cp, between, cq, tail. split; [rewrite Ers; exact E|]. split; [|split; [|split; [exact Pr|]]].
    + rewrite <- La. apply (In_v _ _ _ Ra). apply R1; [exact Ha|apply Ta|exact Na].
    + rewrite <- Lb. apply (In_v _ _ _ Rb). apply R2; [exact Hb|apply Tb|exact Nb].
    + eexists. split; [exact B|]. rewrite La, Lb. cbn [orders].
      destruct (write_layout ma false (e_separate e) (or_introl Ua)) as [-> Wr]. destruct (read_layout mb (rp_compute (create q)) (e_separate e) Ub Fb) as [-> ->].
      split; [reflexivity|]. split; [|rewrite Ua; split; [reflexivity|]; split; [unfold written in Wr; rewrite Wa, Ua in Wr; exact Wr|split; apply N.land_diag]].
      intros layer mip Hr. apply adapt_in_range. destruct Rb as (_ & S1 & S2 & S3 & S4). unfold in_range in *. rewrite S1, S2, S3, S4. exact Hr.
Qed.
Print Assumptions C107_delivered_to_dependent_pass_partial.

(* A pass copies into an image, another one copies into another image; a pass samples the first and copies from the second; a last one
   updates the first image.  They are registered in another order. *)
Definition del_graph : list fpass := [mk 4 [3]; mk 3 [2; 1]; mk 2 []; mk 1 []].
Definition del_pass (f : fpass) : rpass :=
  let id := pr_id (fp_ref f) in
  marker_pass id (match id with
    | 1 => [declare_image addTransferOutputView 1 [lv 1 1] 0 0 0 0]
    | 2 => [declare_image addTransferOutputView 2 [lv 2 2] 0 0 0 0]
    | 3 => [declare_image addSampledView 3 [lv 1 1] 0 0 0 0; declare_image addTransferInputView 3 [lv 2 2] 0 0 0 0]
    | _ => [declare_image addInOutStorageView 4 [lv 1 1] 0 0 0 0]
    end) [] (N.eqb id 4).
Lemma del_registered : well_registered del_graph. Proof.
  constructor; [repeat (constructor; [cbn; intuition discriminate|]); constructor|repeat (constructor; [cbn; intuition discriminate|]); constructor|].
  intros p d q Hp Hd Hq E. cbn in Hp, Hq. destruct Hp as [<-|[<-|[<-|[<-|[]]]]]; cbn in Hd; repeat (destruct Hd as [<-|Hd]; [|]); try destruct Hd;
    destruct Hq as [<-|[<-|[<-|[<-|[]]]]]; cbn in E; try discriminate E; reflexivity.
Qed.
Lemma del_order : compile_order del_graph = Ok [mk 2 []; mk 1 []; mk 3 [2; 1]; mk 4 [3]]. Proof. vm_compute. reflexivity. Qed.
Lemma del_root : has_root del_graph. Proof. exists (mk 2 []). split; [simpl; tauto|reflexivity]. Qed.
Lemma del_harmless v n : harmless v (fun c _ => (c, [CUser n])).
Proof. intros c i. constructor; [exact I|constructor]. Qed.
Lemma del_plain : forall r, In r (map del_pass del_graph) -> plain_pass (lv 1 1) r.
Proof.
  assert (L : forall n, leaves_view (lv 1 1) (fun c _ => (c, [CUser n]))) by (intros n c i; split; reflexivity).
  assert (S1 : same_region (lv 1 1) (lv 1 1)) by (repeat split). assert (S2 : separate_views (lv 2 2) (lv 1 1)) by (left; discriminate).
  assert (S3 : separate_views (lv 1 1) (lv 2 2)) by (left; discriminate).
  assert (V1 : view_ok (lv 1 1)) by (apply ex_regions_ok; left; reflexivity). assert (V2 : view_ok (lv 2 2)) by (apply ex_regions_ok; right; left; reflexivity).
  intros r Hr. cbn in Hr. repeat (destruct Hr as [<-|Hr]; [|]); try destruct Hr; (split; [|split; [|split; [|reflexivity]]]).
  all: try (intros f [[]|[[]| ->]]; apply L).
  all: try (intros w H; cbn in H; repeat (destruct H as [<-|H]; [split; [assumption|first [left; exact S1|right; exact S2]]|]); destruct H).
  all: cbn; repeat (constructor; [intros y H; repeat (destruct H as [<-|H]; [split; assumption|]); destruct H|]); constructor.
Qed.
Lemma del_sound : sound_passes all_on empty_graph ex_regions (map del_pass del_graph).
Proof.
  assert (In1 : ex_regions (lv 1 1)) by (left; reflexivity). assert (In2 : ex_regions (lv 2 2)) by (right; left; reflexivity).
  assert (S12 : separate_views (lv 1 1) (lv 2 2)) by (left; discriminate). assert (S21 : separate_views (lv 2 2) (lv 1 1)) by (left; discriminate).
  intros r Hr. change (flat_map rp_implicit (map del_pass del_graph)) with (@nil (view * action)). cbn in Hr.
  repeat (destruct Hr as [<-|Hr]; [|]); try destruct Hr; (split; [|split; [|split; [|split; [|apply no_actions]]]]);
    try solve [intros w H; cbn in H; repeat (destruct H as [<-|H]; [assumption|]); destruct H];
    try (intros f [[]|[]]); try (apply C67_plain_body; [exact ex_regions_ok|]; intros c i; split; [reflexivity|constructor; [apply neutral_user|constructor]]);
    cbn; repeat (constructor; [intros y H; repeat (destruct H as [<-|H]; [split; assumption|]); destruct H|]); constructor.
Qed.
Example C107_applies : exists cmds, compile_and_record del_pass all_on empty_graph [] del_graph = Ok cmds /\
  all_legal (fun _ _ _ => L_UNDEFINED) cmds /\
  exists before between tail, cmds = before ++ [CUser 1] ++ between ++ [CUser 3] ++ tail /\
    view_in (after_all (fun _ _ _ => L_UNDEFINED) (before ++ [CUser 1] ++ between)) (lv 1 1) L_SHADER_READ_ONLY /\ Forall (preserves (lv 1 1)) between /\
    exists c, In c between /\ orders (lv 1 1) S_TRANSFER A_TRANSFER_WRITE S_FRAGMENT A_SHADER_READ c.
Proof.
  destruct (compile_sound _ del_registered _ del_root del_order) as (Cl & Ac & _).
  destruct (C74_acyclic_graphs_record del_pass all_on empty_graph [] del_graph del_registered ltac:(discriminate) Cl Ac) as (cmds & Ec). exists cmds. split; [exact Ec|].
  pose proof (C107_delivered_to_dependent_pass_partial del_pass all_on empty_graph [] del_graph cmds (mk 1 []) (mk 3 [2; 1]) (lv 1 1) ex_regions (fun _ _ _ => L_UNDEFINED)
    addTransferOutputView 1 [lv 1 1] 0 0 0 0 addSampledView 3 [lv 1 1] 0 0 0 0 del_registered Cl Ac) as H. cbv zeta in H.
  destruct H as (Hl & before & cp & between & cq & tail & E & _ & R & P & c & Hc & O);
    [exact Ec| | | | | | | | | | | | | | | | | | | | | | |].
  - apply t_step. repeat split; simpl; tauto.
  - reflexivity.
  - reflexivity.
  - left. reflexivity.
  - repeat split.
  - left. reflexivity.
  - repeat split.
  - reflexivity.
  - reflexivity.
  - discriminate.
  - right. split; reflexivity.
  - reflexivity.
  - intros r Hr _ N1 N2. cbn in Hr. destruct Hr as [<-|[<-|[<-|[<-|[]]]]].
    + (* the last pass comes after the consumer *) right. right. apply t_step. repeat split; simpl; tauto.
    + contradiction (N2 eq_refl).
    + (* the other copy does not touch the image *) left. split; [intros w [<-|[]]; left; discriminate|].
      intros f [[]|[[]| ->]]. apply del_harmless.
    + contradiction (N1 eq_refl).
  - intros f [H|H]; destruct H.
  - exact ex_regions_ok.
  - left. reflexivity.
  - exact del_sound.
  - exact del_plain.
  - intros w Hw. left. rewrite said_spec. destruct Hw as [->|[->|[->| ->]]]; vm_compute; reflexivity.
  - left. reflexivity.
  - left. reflexivity.
  - left. vm_compute. reflexivity.
  - split; [exact Hl|]. exists before, between, tail. split; [exact E|]. split; [exact R|]. split; [exact P|]. exists c. split; [exact Hc|exact O].
Qed.
