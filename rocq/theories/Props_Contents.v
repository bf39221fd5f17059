(* C83, C107: the contents of an image, on a device that keeps a content for each aspect of each subresource. *)
From Verif Require Import Model_Order Spec_Sort Spec_Deliver Spec_Contents Proof_Sort Proof_Layout Proof_Record Proof_Run2 Proof_Run3 Proof_Device Proof_Device2 Proof_Device3 Proof_Device4 Proof_Device5 Proof_Flow Proof_Flow2 Proof_Flow3 Proof_Deliver Proof_Deliver2 Proof_Contents
  Props_Record Props_Sort Props_Order Props_Device Props_Flow Props_Sync Props_Deliver.
From Verif Require Import Model_Sort Spec_Sort.
Local Open Scope N_scope.

(** C83, what "neither discarded nor overwritten" means on a device: however the commands change the contents they are allowed to
    change, the view has the same contents after them; and a command that is not said to preserve a view can change something in it. *)
Theorem C83_contents_device : forall v,
  (forall l k k', Forall (preserves v) l -> contents_after k l k' -> same_contents v k k') /\
  (forall c, (forall layer mip s, in_range (v_range v) layer mip -> ~ may_change c (i_id (v_image v)) layer mip s) -> preserves v c).
Proof. intro v. split; [intros l k k'; apply preserved_contents|apply unchanged_preserved]. Qed.
Print Assumptions C83_contents_device.

(* Where the passes are in a compiled graph. *)
Lemma dependent_split ps order p q : well_registered ps -> closed ps -> acyclic ps -> compile_order ps = Ok order -> clos_trans _ (needs ps) q p ->
  exists l0 mid l1, order = l0 ++ p :: mid ++ q :: l1 /\ forall x, In x mid -> x <> p /\ x <> q /\ ~ clos_trans _ (needs ps) p x /\ ~ clos_trans _ (needs ps) x q.
Proof.
  intros W C A Eo Hn. pose proof (compile_perm ps order W Eo) as Perm.
  assert (Nd : NoDup order).
  { apply (Permutation_NoDup Perm). destruct W as [Wr _ _]. apply (NoDup_map_inv _ _ Wr). }
  assert (Cut : forall (l1 l2 m1 m2 : list fpass) x, NoDup (l1 ++ x :: l2) -> l1 ++ x :: l2 = m1 ++ x :: m2 -> l1 = m1 /\ l2 = m2).
  { clear. induction l1 as [|y l1 IH]; intros l2 [|z m1] m2 x N E; cbn in *.
    - injection E as ->. auto.
    - injection E as -> E. exfalso. inversion N as [|? ? H1 _]. apply H1. rewrite E. apply in_or_app. right. left. reflexivity.
    - injection E as -> E. exfalso. inversion N as [|? ? H1 _]. apply H1. apply in_or_app. right. left. reflexivity.
    - injection E as -> E. inversion N as [|? ? _ H2]. destruct (IH l2 m1 m2 x H2 E). split; congruence. }
  assert (Bf : forall x y, clos_trans _ (needs ps) x y -> before order y x).
  { pose proof (compile_topological ps order W C A Eo) as T. intros x y Hxy. induction Hxy as [x y Hxy|x y z H1 IH1 H2 IH2]; [apply T, Hxy|].
    destruct IH2 as (a1 & a2 & a3 & Ea). destruct IH1 as (b1 & b2 & b3 & Eb).
    assert (Ea' : order = (a1 ++ z :: a2) ++ y :: a3) by (rewrite Ea, <- app_assoc; reflexivity).
    destruct (Cut (a1 ++ z :: a2) a3 b1 (b2 ++ x :: b3) y) as [_ X]; [rewrite <- Ea'; exact Nd|rewrite <- Ea'; exact Eb|].
    exists a1, (a2 ++ y :: b2), b3. rewrite Ea, X, <- app_assoc. reflexivity. }
  destruct (Bf q p Hn) as (l0 & mid & l1 & Eord). exists l0, mid, l1. split; [exact Eord|]. intros x Hx.
  assert (B1 : before order p x) by (apply in_split in Hx; destruct Hx as (m1 & m2 & ->); exists l0, m1, (m2 ++ q :: l1); rewrite Eord, <- app_assoc; reflexivity).
  assert (B2 : before order x q) by (apply in_split in Hx; destruct Hx as (m1 & m2 & ->); exists (l0 ++ p :: m1), m2, l1; rewrite Eord, <- !app_assoc; cbn [app]; rewrite <- ?app_assoc; reflexivity).
  split; [intros ->; apply (before_once order p p Nd); exact B1|]. split; [intros ->; apply (before_once order q q Nd); exact B2|].
  split; intro Z; [apply (before_once order p x Nd B1)|apply (before_once order x q Nd B2)]; apply Bf, Z.
Qed.

(** C107 but for the barrier, whatever the producer and the consumer do with the image (storage, sampling in any stage, render targets,
    transfers) and whatever implicit actions the graph has: the commands are legal, the producer is recorded before the consumer, both
    find their attachments in the layouts they asked for, and the contents of the image when the consumer begins are those the producer
    left, on all the possible devices. *)
Theorem C107_contents_delivered_partial : forall create e g deps ps cmds p q v F d,
  let passes := map create ps in
  well_registered ps -> closed ps -> acyclic ps -> compile_and_record create e g deps ps = Ok cmds ->
  clos_trans _ (needs ps) q p -> e_enabled e (rp_id (create p)) = true -> e_enabled e (rp_id (create q)) = true ->
  (* the producer uses the image and does not touch it after its body; the consumer does not touch it before its own *)
  establishes e v (create p) -> (forall f, In f (rp_post (create p)) -> careful_at true g v (rp_index (create p)) f) -> careful_before true g v (create q) ->
  (* the other passes: the dependencies put them before the producer or after the consumer, or they do not write the image; the implicit
     actions that can be run from the producer to the consumer do not write it *)
  (forall r, In r ps -> e_enabled e (rp_id (create r)) = true -> clos_trans _ (needs ps) p r \/ clos_trans _ (needs ps) r q \/
     (careful_actions true e g v [create r] passes /\ (r = p \/ r = q \/ careful_pass true g v (create r)))) ->
  regions F -> F v -> sound_passes e g F passes -> quiet_env e -> (forall r, In r passes -> quiet_pass r) ->
  (forall w, F w -> truthful g (start_context e deps []) d w) ->
  all_legal d cmds /\
  exists before cp between cq tail,
    cmds = before ++ snd (rp_record (create p) cp (rp_index (create p))) ++ between ++ snd (rp_record (create q) cq (rp_index (create q))) ++ tail /\
    ready e (create p) (after_all d before) /\ ready e (create q) (after_all d (before ++ snd (rp_record (create p) cp (rp_index (create p))) ++ between)) /\
    Forall (preserves v) between /\ forall k k', contents_after k between k' -> same_contents v k k'.
Proof.
  intros create e g deps ps cmds p q v F d passes W C A H Hn Ep Eq Es Hpost Hq Ho HF Fv Hs Qe Q Tr.
  unfold compile_and_record in H. destruct (compile_order ps) as [order| | |] eqn:Eo; try discriminate. injection H as <-.
  pose proof (compile_perm ps order W Eo) as Perm.
  destruct (dependent_split ps order p q W C A Eo Hn) as (l0 & mid & l1 & Eord & Hmid).
  unfold runnable_passes. set (rs := map create order) in *.
  assert (Ers : rs = map create l0 ++ create p :: map create mid ++ create q :: map create l1) by (unfold rs; rewrite Eord, map_app; cbn [map]; rewrite map_app; reflexivity).
  assert (Iff : forall r, In r rs <-> In r passes).
  { intro r. unfold rs, passes. rewrite !in_map_iff. split; intros (x & E & Hx); exists x; (split; [exact E|]); [apply (Permutation_in x (Permutation_sym Perm) Hx)|apply (Permutation_in x Perm Hx)]. }
  assert (Hs' : sound_passes e g F rs) by (apply (sound_passes_incl e g F passes); [apply Iff|exact Hs]).
  assert (Q' : forall r, In r rs -> quiet_pass r) by (intros r Hr; apply Q, Iff, Hr).
  assert (Tr' : forall w, F w -> truthful g (start_context e deps rs) d w) by (intros w Hw; apply (start_truthful e g deps []), Tr, Hw).
  assert (Irr : forall x, clos_trans _ (needs ps) x x -> False) by (intros x Hx; apply (A x), Hx).
  assert (Inp : forall x, In x order -> In x ps) by (intros x Hx; apply (Permutation_in x (Permutation_sym Perm) Hx)).
  assert (Ip : In p ps) by (apply Inp; rewrite Eord; apply in_or_app; right; left; reflexivity).
  assert (Iq : In q ps) by (apply Inp; rewrite Eord; apply in_or_app; right; right; apply in_or_app; right; left; reflexivity).
  assert (Imid : forall x, In x mid -> In x ps) by (intros x Hx; apply Inp; rewrite Eord; apply in_or_app; right; right; apply in_or_app; left; exact Hx).
  assert (Ha : careful_actions true e g v (create p :: map create mid ++ [create q]) rs).
  { intros x y w a Hx Hy En Hin.
    assert (G : forall r, In r ps -> x = create r -> ~ clos_trans _ (needs ps) p r -> ~ clos_trans _ (needs ps) r q -> careful_action true e g v (rp_index x) a).
    { intros r Hr -> N1 N2. destruct (Ho r Hr En) as [Z|[Z|[Z _]]]; [contradiction|contradiction|]. apply (Z _ y w a (or_introl eq_refl)); [apply Iff, Hy|exact En|exact Hin]. }
    destruct Hx as [Hx|Hx]; [|apply in_app_or in Hx; destruct Hx as [Hx|[Hx|[]]]].
    - apply (G p Ip); [symmetry; exact Hx|intro Z; apply (Irr p Z)|]. intro Z. apply (Irr p). apply t_trans with q; assumption.
    - apply in_map_iff in Hx. destruct Hx as (r & Er & Hr). destruct (Hmid r Hr) as (_ & _ & N1 & N2). apply (G r); [apply Imid, Hr|symmetry; exact Er|exact N1|exact N2].
    - apply (G q Iq); [symmetry; exact Hx| |intro Z; apply (Irr q Z)]. intro Z. apply (Irr p). apply t_trans with q; assumption. }
  split.
  { pose proof (graph_good e g F HF deps rs d Hs' Tr') as G. destruct (record_graph e g deps rs) as [[g' cm] tr]. exact (proj1 G). }
  destruct (deliver_contents e g Qe v (proj1 (proj1 HF v Fv)) F d deps (map create l0) (create p) (map create mid) (create q) (map create l1)) as (before & cp & between & cq & tail & E & R1 & R2 & P & _);
    try rewrite <- Ers; try assumption.
  - intros r Hr En. apply in_map_iff in Hr. destruct Hr as (x & <- & Hx). destruct (Hmid x Hx) as (N1 & N2 & N3 & N4).
    destruct (Ho x (Imid x Hx) En) as [Z|[Z|[_ [Z|[Z|Z]]]]]; try contradiction. exact Z.
  - exists before, cp, between, cq, tail. split; [rewrite Ers; exact E|]. split; [exact R1|]. split; [exact R2|]. split; [exact P|].
    intros k k'. apply preserved_contents, P.
Qed.
Print Assumptions C107_contents_delivered_partial.

(* A compute pass writes an image; another pass depends on it, is disabled, and asked to be replaced by a copy of the image; a third one
   samples the copy and the image in a compute shader; a last one updates the image.  They are registered in another order. *)
Definition hand_graph : list fpass := [mk 6 [3]; mk 3 [4; 1]; mk 4 [1]; mk 1 []].
Definition hand_copy : view * action := (lv 2 2, ACopy (lv 1 1) (lv 2 2) 16 16 L_SHADER_READ_ONLY).
Definition hand_pass (f : fpass) : rpass :=
  let id := pr_id (fp_ref f) in
  if N.eqb id 4 then off_pass 4 [hand_copy] else
  marker_pass id (match id with
    | 1 => [declare_image addOutputStorageView 1 [lv 1 1] 0 0 0 0]
    | 3 => [declare_image addSampledView 3 [lv 2 2] 0 0 0 0; declare_image addSampledView 3 [lv 1 1] 0 0 0 0]
    | _ => [declare_image addInOutStorageView 6 [lv 1 1] 0 0 0 0]
    end) [] true.
Lemma hand_registered : well_registered hand_graph. Proof.
  constructor; [repeat (constructor; [cbn; intuition discriminate|]); constructor|repeat (constructor; [cbn; intuition discriminate|]); constructor|].
  intros p d q Hp Hd Hq E. cbn in Hp, Hq. destruct Hp as [<-|[<-|[<-|[<-|[]]]]]; cbn in Hd; repeat (destruct Hd as [<-|Hd]; [|]); try destruct Hd;
    destruct Hq as [<-|[<-|[<-|[<-|[]]]]]; cbn in E; try discriminate E; reflexivity.
Qed.
Lemma hand_order : compile_order hand_graph = Ok [mk 1 []; mk 4 [1]; mk 3 [4; 1]; mk 6 [3]]. Proof. vm_compute. reflexivity. Qed.
Lemma hand_root : has_root hand_graph. Proof. exists (mk 1 []). split; [simpl; tauto|reflexivity]. Qed.
Lemma hand_sound : sound_passes some_off empty_graph ex_regions (map hand_pass hand_graph).
Proof.
  assert (In1 : ex_regions (lv 1 1)) by (left; reflexivity). assert (In2 : ex_regions (lv 2 2)) by (right; left; reflexivity).
  assert (S12 : separate_views (lv 1 1) (lv 2 2)) by (left; discriminate). assert (S21 : separate_views (lv 2 2) (lv 1 1)) by (left; discriminate).
  assert (T : forall i w, touched [hand_copy] i (lv 1 1) w -> False).
  { intros i w H. inversion H as [v u a x Hx E _|v u a s x Hx E _ _]; destruct Hx as [Hx|[]]; injection Hx as <- <-; discriminate E. }
  assert (B : forall p, (exists n, rp_record p = fun c _ => (c, [CUser n])) -> rp_pre p = [] -> rp_post p = [] -> (forall w, In w (pass_views p) -> ex_regions w) ->
    pairwise (fun a b => separate_views (attach_view a (rp_index p)) (attach_view b (rp_index p))) (rp_images p) ->
    ForallOrdPairs (fun a b => forall w, touched [hand_copy] (rp_index p) (attach_view b (rp_index p)) w -> separate_views w (attach_view a (rp_index p))) (rp_images p) ->
    sound_pass some_off empty_graph ex_regions [hand_copy] p).
  { intros p [n Hn] E1 E2 H1 H2 H3. split; [exact H1|]. split; [exact H2|]. split; [rewrite E1, E2; intros f [[]|[]]|].
    split; [apply C67_plain_body; [exact ex_regions_ok|]; rewrite Hn; intros c i; split; [reflexivity|constructor; [apply neutral_user|constructor]]|].
    split; [|exact H3]. intros x [<-|[]]. split; [intros w [<-|[<-|[]]]; assumption|exact S12]. }
  intros r Hr. change (flat_map rp_implicit (map hand_pass hand_graph)) with [hand_copy]. cbn in Hr. destruct Hr as [<-|[<-|[<-|[<-|[]]]]].
  - apply B; [eexists; reflexivity|reflexivity|reflexivity|intros w [<-|[]]; assumption|constructor; [intros y []|constructor]|constructor; [constructor|constructor]].
  - apply B; [eexists; reflexivity|reflexivity|reflexivity|intros w [<-|[<-|[]]]; assumption| |].
    + constructor; [intros y [<-|[]]; split; assumption|]. constructor; [intros y []|constructor].
    + constructor; [constructor; [intros w H; destruct (T _ _ H)|constructor]|]. repeat constructor.
  - apply B; [eexists; reflexivity|reflexivity|reflexivity|intros w []|constructor|constructor].
  - apply B; [eexists; reflexivity|reflexivity|reflexivity|intros w [<-|[]]; assumption|constructor; [intros y []|constructor]|constructor; [constructor|constructor]].
Qed.
Example C107_contents_applies : exists cmds, compile_and_record hand_pass some_off empty_graph [] hand_graph = Ok cmds /\
  all_legal (fun _ _ _ => L_UNDEFINED) cmds /\
  exists before between tail, cmds = before ++ [CUser 1] ++ between ++ [CUser 3] ++ tail /\
    view_in (after_all (fun _ _ _ => L_UNDEFINED) (before ++ [CUser 1] ++ between)) (lv 1 1) L_SHADER_READ_ONLY /\
    forall k k', contents_after k between k' -> same_contents (lv 1 1) k k'.
Proof.
  destruct (compile_sound _ hand_registered _ hand_root hand_order) as (Cl & Ac & _).
  destruct (C74_acyclic_graphs_record hand_pass some_off empty_graph [] hand_graph hand_registered ltac:(discriminate) Cl Ac) as (cmds & Ec). exists cmds. split; [exact Ec|].
  assert (Cm : forall r, In r (map hand_pass hand_graph) -> careful_actions true some_off empty_graph (lv 1 1) [r] (map hand_pass hand_graph)).
  { intros r _ x y w a _ Hy _ Hx. cbn in Hy. destruct Hy as [<-|[<-|[<-|[<-|[]]]]]; cbn in Hx; try contradiction. destruct Hx as [Hx|[]].
    injection Hx as <- <-. cbn [careful_action]. split; [apply near_self|]. split; [left; reflexivity|]. split; [apply ok_lv|]. left. discriminate. }
  pose proof (C107_contents_delivered_partial hand_pass some_off empty_graph [] hand_graph cmds (mk 1 []) (mk 3 [4; 1]) (lv 1 1) ex_regions (fun _ _ _ => L_UNDEFINED)
    hand_registered Cl Ac Ec) as H. cbv zeta in H.
  destruct H as (Hl & before & cp & between & cq & tail & E & _ & R & P & K).
  - apply t_step. repeat split; simpl; tauto.
  - reflexivity.
  - reflexivity.
  - left. split; [|split].
    + eexists. split; [left; reflexivity|]. split; [repeat split|]. split; [reflexivity|vm_compute; discriminate].
    + intros a [<-|[]]. apply near_self.
    + intros f [[]| -> ] c Hc. exact Hc.
  - intros f [].
  - split; [|intros f []]. intros a [<-|[<-|[]]]; (split; [first [apply near_self|apply near_other; discriminate]|]); intros _ S; [exfalso; destruct S as (S & _); discriminate S|split; [reflexivity|left; reflexivity]].
  - intros r Hr En. cbn in Hr. destruct Hr as [<-|[<-|[<-|[<-|[]]]]].
    + right. left. apply t_step. repeat split; simpl; tauto.
    + right. right. split; [apply Cm; simpl; tauto|right; left; reflexivity].
    + discriminate En.
    + right. right. split; [apply Cm; simpl; tauto|left; reflexivity].
  - exact ex_regions_ok.
  - left. reflexivity.
  - exact hand_sound.
  - apply quiet_actions. reflexivity.
  - intros r Hr. cbn in Hr. repeat (destruct Hr as [<-|Hr]; [intros f [[]|[[]| -> ]]; apply quiet_marker|]). destruct Hr.
  - intros w Hw. left. rewrite said_spec. destruct Hw as [->|[->|[->| ->]]]; vm_compute; reflexivity.
  - split; [exact Hl|]. exists before, between, tail. split; [exact E|].
    split; [apply (R (declare_image addSampledView 3 [lv 1 1] 0 0 0 0)); [right; left; reflexivity|reflexivity|vm_compute; discriminate]|exact K].
Qed.
(* The copy that replaces the disabled pass is recorded in between. *)
Example C107_contents_copies : exists l1 l2 l3 l4, compile_and_record hand_pass some_off empty_graph [] hand_graph =
  Ok (l1 ++ [CUser 1] ++ l2 ++ [CCopyImage 1 L_TRANSFER_SRC 2 L_TRANSFER_DST (rng 0 1 0 1) (rng 0 1 0 1) 16 16] ++ l3 ++ [CUser 3] ++ l4).
Proof.
  set (l := match compile_and_record hand_pass some_off empty_graph [] hand_graph with Ok l => l | _ => [] end).
  exists (firstn 3 l), (firstn 6 (skipn 4 l)), (firstn 2 (skipn 11 l)), (skipn 14 l). vm_compute. reflexivity.
Qed.
