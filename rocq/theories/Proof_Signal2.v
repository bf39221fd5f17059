From Verif Require Import Spec_Signal Proof_Layout Proof_Run3 Proof_Signal.
From Coq Require Import Lia PeanoNat Sorted.
Local Open Scope N_scope.

(* ---------- objects: any legal history ---------- *)
Record dom (w : sworld) (i : ideal) : Prop := {
  dom_inv : inv w;
  dom_signals : forall s, mfind s (w_signals w) <> None <-> In s (id_signals i);
  dom_conns : forall a, con_at w a <> None <-> living i a;
  dom_size : forall s g, mfind s (w_signals w) = Some g -> (msize (sg_slots g) <= id_next i)%nat }.

Lemma slots_dom w w' (s : N) : slots_of w' s = slots_of w s -> (mfind s (w_signals w') <> None <-> mfind s (w_signals w) <> None).
Proof. unfold slots_of. destruct (mfind s (w_signals w')), (mfind s (w_signals w)); simpl; intro; try discriminate; split; congruence. Qed.
Lemma slots_some w s : mfind s (w_signals w) <> None <-> slots_of w s <> None.
Proof. unfold slots_of. destruct (mfind s (w_signals w)); simpl; split; congruence. Qed.
Lemma slots_size w s m n : (forall s g, mfind s (w_signals w) = Some g -> (msize (sg_slots g) <= n)%nat) -> slots_of w s = Some m -> (msize m <= n)%nat.
Proof. unfold slots_of. intros H. destruct (mfind s (w_signals w)) as [g|] eqn:E; simpl; [intros [= <-]; eapply H; exact E|discriminate]. Qed.
Lemma size_slots w n : (forall s m, slots_of w s = Some m -> (msize m <= n)%nat) -> forall s g, mfind s (w_signals w) = Some g -> (msize (sg_slots g) <= n)%nat.
Proof. intros H s g E. apply (H s). unfold slots_of. rewrite E. reflexivity. Qed.
Lemma merase_size {V} k (m : nmap V) : (msize (merase k m) <= msize m)%nat.
Proof. unfold msize, merase. induction m as [|x m IH]; simpl; [lia|]. destruct (negb _); simpl; lia. Qed.
Lemma mput_size {V} k (v : V) m : (msize (mput k v m) <= S (msize m))%nat.
Proof. unfold msize. induction m as [|[k' v'] m IH]; simpl; [lia|]. destruct (N.eqb k k'); simpl; [lia|]. destruct (N.ltb k k'); simpl; lia. Qed.
Lemma minsert_size {V} k (v : V) m : (msize (minsert k v m) <= S (msize m))%nat.
Proof. unfold minsert. destruct (mfind k m); [lia|apply mput_size]. Qed.

Lemma living_mput (i : ideal) a (v : option nat) h q : mfind q (mput a v h) <> None <-> q = a \/ mfind q h <> None.
Proof. rewrite mfind_mput. destruct (N.eqb_spec q a); split; intros; auto; try congruence. destruct H; congruence. Qed.
Lemma release_find gone h a : mfind a (release gone h) =
  option_map (fun o => match o with Some n => if existsb (fun t => Nat.eqb (tk_id t) n) gone then None else Some n | None => None end) (mfind a h).
Proof. induction h as [|[k v] h IH]; simpl; [reflexivity|]. destruct (N.eqb a k); [reflexivity|exact IH]. Qed.

Lemma dom_step w i o : dom w i -> legal i o -> N.of_nat (id_next i) < 2 ^ 32 - 1 -> exists w', sop_step w o = Some w' /\ dom w' (ideal_step i o).
Proof.
  intros [Hi Hs Hc Hz] Hl Hn.
  assert (con : forall a, living i a -> exists c, con_at w a = Some c).
  { intros a Ha. apply Hc in Ha. destruct (con_at w a) as [c|]; [eauto|contradiction]. }
  assert (nocon : forall a, ~ living i a -> con_at w a = None).
  { intros a Ha. destruct (con_at w a) as [c|] eqn:E; [|reflexivity]. exfalso. apply Ha. apply Hc. congruence. }
  destruct o as [s|s|s a f|a|a b|a b tmp|a|a]; simpl in Hl; cbn [sop_step].
  - assert (Hs' : mfind s (w_signals w) = None).
    { destruct (mfind s (w_signals w)) eqn:E; [|reflexivity]. exfalso. apply Hl. apply Hs. congruence. }
    destruct (create_spec w s Hi Hs') as (w' & E & I' & C' & S'). exists w'. split; [exact E|]. split; [exact I'| | |].
    + intro q. simpl. rewrite slots_some, S', <- Hs, slots_some. destruct (N.eqb_spec q s) as [->|Hne]; split; intros; auto; try congruence.
      destruct H; congruence.
    + intro a. rewrite C'. apply Hc.
    + apply size_slots. intros q m. rewrite S'. destruct (N.eqb q s); [intros [= <-]; simpl; lia|]. apply (slots_size w q m _ Hz).
  - apply Hs in Hl. destruct (sig_destroy_spec w s Hi Hl) as (w' & E & I' & C' & S'). exists w'. split; [exact E|]. split; [exact I'| | |].
    + intro q. simpl. rewrite slots_some, S', in_removed, <- Hs, slots_some. destruct (N.eqb_spec q s) as [->|]; intuition.
    + intro a. rewrite C'. unfold living. simpl. rewrite release_find. specialize (Hc a). unfold living in Hc.
      destruct (con_at w a) as [c|], (mfind a (id_holds i)); simpl in *; try destruct (is_sig _ _); intuition congruence.
    + apply size_slots. intros q m. rewrite S'. destruct (N.eqb q s); [discriminate|]. apply (slots_size w q m _ Hz).
  - destruct Hl as [Hl1 Hl2]. apply Hs in Hl1. destruct (mfind s (w_signals w)) as [g|] eqn:Eg; [|contradiction].
    specialize (Hz s g Eg) as Hzg.
    destruct (connect_spec w s a f g Hi Eg (nocon a Hl2)) as (w' & E & I' & C' & S'); [lia|]. exists w'. split; [exact E|]. split; [exact I'| | |].
    + intro q. simpl. rewrite <- Hs, !slots_some, S'. unfold slots_of at 2. destruct (N.eqb_spec q s) as [->|].
      * rewrite Eg. simpl. split; discriminate.
      * reflexivity.
    + intro q. unfold living. simpl. rewrite living_mput by exact i. rewrite C'. specialize (Hc q). unfold living in Hc. destruct (N.eqb_spec q a); split; intros; auto; try congruence.
      * right. apply Hc. exact H.
      * destruct H; [congruence|]. apply Hc. exact H.
    + apply size_slots. intros q m. rewrite S'. simpl. destruct (N.eqb q s).
      * intros [= <-]. pose proof (minsert_size (N.of_nat (msize (sg_slots g)) + 1) f (sg_slots g)). lia.
      * intro H. pose proof (slots_size w q m _ Hz H). lia.
  - destruct (default_spec w a Hi (nocon a Hl)) as (I' & C' & S'). eexists. split; [reflexivity|]. split; [exact I'| | |].
    + intro q. simpl. apply Hs.
    + intro q. unfold living. simpl. rewrite living_mput by exact i. rewrite C'. specialize (Hc q). unfold living in Hc. destruct (N.eqb_spec q a); intuition congruence.
    + apply size_slots. intros q m. rewrite S'. apply (slots_size w q m _ Hz).
  - destruct Hl as [Hl1 Hl2]. destruct (con b Hl2) as [cb Hb]. destruct (move_spec w a b cb Hi (nocon a Hl1) Hb) as (w' & E & I' & C' & S').
    exists w'. split; [exact E|]. split; [exact I'| | |].
    + intro q. simpl. rewrite <- Hs. apply slots_dom. apply S'.
    + intro q. unfold living. simpl. rewrite !living_mput by exact i. rewrite C'. specialize (Hc q). unfold living in Hc. destruct (N.eqb_spec q a), (N.eqb_spec q b); intuition congruence.
    + apply size_slots. intros q m. rewrite S'. apply (slots_size w q m _ Hz).
  - destruct Hl as (Hl1 & Hl2 & Hl3). destruct (con a Hl1) as [ca Ha]. destruct (con b Hl2) as [cb Hb].
    destruct (assign_spec w a b tmp ca cb Hi Ha Hb (nocon tmp Hl3)) as (w' & E & I' & C' & S'). exists w'. split; [exact E|].
    split; [exact I'| | |].
    + intro q. assert (X : id_signals (ideal_step i (ConAssign a b tmp)) = id_signals i) by (simpl; destruct (N.eqb a b); reflexivity).
      rewrite X, <- Hs, !slots_some, S'. destruct (andb _ _); [|reflexivity]. destruct (slots_of w q); simpl; split; congruence.
    + intro q. rewrite C'. specialize (Hc q). unfold living in *. simpl. destruct (N.eqb_spec a b) as [->|].
      * destruct (N.eqb_spec q b) as [->|]; [|exact Hc]. split; intros; [exact Hl2|discriminate].
      * cbn [id_holds]. rewrite !living_mput by exact i. destruct (N.eqb_spec q a), (N.eqb_spec q b); intuition congruence.
    + apply size_slots. intros q m. rewrite S'. assert (X : id_next (ideal_step i (ConAssign a b tmp)) = id_next i) by (simpl; destruct (N.eqb a b); reflexivity). rewrite X.
      destruct (andb _ _); [|apply (slots_size w q m _ Hz)]. destruct (slots_of w q) as [m0|] eqn:Em; [|discriminate]. intros [= <-].
      pose proof (slots_size w q m0 _ Hz Em). pose proof (merase_size (cn_index ca) m0). lia.
  - destruct (con a Hl) as [c Ha]. destruct (disconnect_spec w a c Hi Ha) as (w' & E & I' & C' & S'). exists w'. split; [exact E|].
    split; [exact I'| | |].
    + intro q. simpl. rewrite <- Hs, !slots_some, S'. destruct (match cn_signal c with Some s' => N.eqb q s' | None => false end); [|reflexivity]. destruct (slots_of w q); simpl; split; congruence.
    + intro q. unfold living. simpl. rewrite living_mput by exact i. rewrite C'. specialize (Hc q). unfold living in Hc. destruct (N.eqb_spec q a); intuition congruence.
    + apply size_slots. intros q m. rewrite S'. destruct (match cn_signal c with Some s' => N.eqb q s' | None => false end); [|apply (slots_size w q m _ Hz)].
      destruct (slots_of w q) as [m0|] eqn:Em; [|discriminate]. intros [= <-]. pose proof (slots_size w q m0 _ Hz Em). pose proof (merase_size (cn_index c) m0). simpl. lia.
  - destruct (con a Hl) as [c Ha]. destruct (destroy_spec w a c Hi Ha) as (w' & E & I' & C' & S'). exists w'. split; [exact E|].
    split; [exact I'| | |].
    + intro q. simpl. rewrite <- Hs, !slots_some, S'. destruct (is_sig (cn_signal c) q); [|reflexivity]. destruct (slots_of w q); simpl; split; congruence.
    + intro q. unfold living. simpl. rewrite merase_find. rewrite C'. specialize (Hc q). unfold living in Hc. destruct (N.eqb_spec q a); intuition congruence.
    + apply size_slots. intros q m. rewrite S'. destruct (is_sig (cn_signal c) q); [|apply (slots_size w q m _ Hz)].
      destruct (slots_of w q) as [m0|] eqn:Em; [|discriminate]. intros [= <-]. pose proof (slots_size w q m0 _ Hz Em). pose proof (merase_size (cn_index c) m0). simpl. lia.
Qed.

Definition connects (l : list sop) : nat := length (filter (fun o => match o with SigConnect _ _ _ => true | _ => false end) l).
Lemma next_step i o : id_next (ideal_step i o) = (id_next i + connects [o])%nat.
Proof. destruct o as [| | | | |a b tmp| |]; unfold connects; simpl; try lia. destruct (N.eqb a b); simpl; lia. Qed.
Lemma connects_cons o l : connects (o :: l) = (connects [o] + connects l)%nat.
Proof. unfold connects. simpl. destruct o; simpl; lia. Qed.
Lemma connects_one o : (connects [o] <= 1)%nat.
Proof. unfold connects. destruct o; simpl; lia. Qed.

(* the bound on connects is only needed when connecting; weaken the step *)
Lemma dom_run l : forall w i, dom w i -> legal_all i l -> N.of_nat (id_next i + connects l) < 2 ^ 32 - 1 ->
  exists w', sops w l = Some w' /\ dom w' (fold_left ideal_step l i).
Proof.
  induction l as [|o l IH]; intros w i Hd Hl Hn; simpl; [eexists; split; [reflexivity|exact Hd]|].
  destruct Hl as [Hl1 Hl2]. rewrite connects_cons in Hn. destruct (dom_step w i o Hd Hl1) as (w1 & E & D1); [lia|].
  rewrite E. cbn [obind]. apply IH; [exact D1|exact Hl2|]. rewrite next_step. lia.
Qed.
Lemma dom_empty : dom empty_world no_signal.
Proof.
  split; [exact inv_empty| | |].
  - intro q. simpl. split; [congruence|contradiction].
  - intro a. unfold living, con_at. simpl. split; congruence.
  - intros q g H. discriminate.
Qed.

(* ---------- simulation ---------- *)
Definition slot_of (t : token) : N * N := (tk_num t, tk_fun t).
Record sim (w : sworld) (i : ideal) : Prop := {
  sim_dom : dom w i;
  sim_slots : forall s, In s (id_signals i) -> slots_of w s = Some (map slot_of (of_signal s (id_live i)));
  sim_hold : forall a n, mfind a (id_holds i) = Some (Some n) -> exists t, In t (id_live i) /\ tk_id t = n /\
      con_at w a = Some {| cn_index := tk_num t; cn_signal := Some (tk_signal t) |};
  sim_free : forall a, mfind a (id_holds i) = Some None -> con_at w a = Some null_conn;
  sim_ids : NoDup (map tk_id (id_live i));
  sim_next : forall t, In t (id_live i) -> (tk_id t < id_next i)%nat;
  sim_alive : forall t, In t (id_live i) -> In (tk_signal t) (id_signals i);
  sim_inj : forall a b n, mfind a (id_holds i) = Some (Some n) -> mfind b (id_holds i) = Some (Some n) -> a = b;
  sim_sorted : forall s, StronglySorted N.lt (map tk_num (of_signal s (id_live i))) }.

Lemma of_signal_in s t l : In t (of_signal s l) <-> In t l /\ tk_signal t = s.
Proof. unfold of_signal. rewrite filter_In, N.eqb_eq. reflexivity. Qed.
Lemma id_unique i t t' : NoDup (map tk_id (id_live i)) -> In t (id_live i) -> In t' (id_live i) -> tk_id t = tk_id t' -> t = t'.
Proof.
  induction (id_live i) as [|x l IH]; simpl; intros Hn Ht Ht' E; [contradiction|]. inversion Hn; subst.
  destruct Ht as [->|Ht], Ht' as [->|Ht']; auto.
  - exfalso. apply H1. rewrite E. apply in_map. exact Ht'.
  - exfalso. apply H1. rewrite <- E. apply in_map. exact Ht.
Qed.
Lemma sorted_filter {A} (f : A -> N) (p : A -> bool) l : StronglySorted N.lt (map f l) -> StronglySorted N.lt (map f (filter p l)).
Proof.
  induction l as [|x l IH]; simpl; intro H; [constructor|]. inversion H as [|? ? H1 H2]; subst. destruct (p x); simpl; [|auto].
  constructor; [auto|]. apply Forall_forall. intros y Hy. rewrite Forall_forall in H2. apply H2. apply in_map_iff in Hy. destruct Hy as (z & <- & Hz).
  apply in_map. apply filter_In in Hz. tauto.
Qed.
Lemma filter_comm {A} (p q : A -> bool) l : filter p (filter q l) = filter q (filter p l).
Proof. induction l as [|x l IH]; simpl; [reflexivity|]. destruct (p x) eqn:Ep, (q x) eqn:Eq; simpl; rewrite ?Ep, ?Eq, ?IH; reflexivity. Qed.
Lemma filter_all {A} (p : A -> bool) l : (forall x, In x l -> p x = true) -> filter p l = l.
Proof. induction l as [|x l IH]; simpl; intro H; [reflexivity|]. rewrite (H x) by auto. f_equal. apply IH. auto. Qed.
Lemma nodup_map_filter {A B} (f : A -> B) p l : NoDup (map f l) -> NoDup (map f (filter p l)).
Proof.
  induction l as [|x l IH]; simpl; intro H; [constructor|]. inversion H; subst. destruct (p x); simpl; [|auto]. constructor; [|auto].
  intro F. apply H2. apply in_map_iff in F. destruct F as (y & E & Hy). rewrite <- E. apply in_map. apply filter_In in Hy. tauto.
Qed.

(* erasing the number of a token erases that token *)
Lemma erase_token i t : NoDup (map tk_id (id_live i)) -> StronglySorted N.lt (map tk_num (of_signal (tk_signal t) (id_live i))) -> In t (id_live i) ->
  merase (tk_num t) (map slot_of (of_signal (tk_signal t) (id_live i))) =
  map slot_of (of_signal (tk_signal t) (drop_token (Some (tk_id t)) (id_live i))).
Proof.
  intros Hn Hs Ht. unfold drop_token, of_signal in *. rewrite filter_comm.
  set (l := filter (fun t0 => N.eqb (tk_signal t0) (tk_signal t)) (id_live i)) in *.
  assert (Hl : In t l) by (unfold l; apply filter_In; split; [exact Ht|apply N.eqb_refl]).
  assert (Hsub : forall x, In x l -> In x (id_live i)) by (intros x Hx; apply filter_In in Hx; tauto).
  unfold merase.
  assert (G : forall l', (forall x, In x l' -> In x l) ->
     filter (fun e => negb (N.eqb (fst e) (tk_num t))) (map slot_of l') = map slot_of (filter (fun x => negb (Nat.eqb (tk_id x) (tk_id t))) l')).
  { induction l' as [|x l' IH]; simpl; intro Hx; [reflexivity|].
    assert (E : N.eqb (tk_num x) (tk_num t) = Nat.eqb (tk_id x) (tk_id t)).
    { destruct (Nat.eqb_spec (tk_id x) (tk_id t)) as [E|E].
      - rewrite (id_unique i x t Hn) by auto. apply N.eqb_refl.
      - apply N.eqb_neq. intro F. apply E. f_equal.
        assert (Xl : In x l) by auto. revert Hs Xl Hl F. generalize l as m. clear. induction m as [|y m IH]; simpl; [contradiction|]; intros Hs [->|Hx] [->|Ht] F; try reflexivity.
        + inversion Hs as [|? ? _ H]; subst. rewrite Forall_forall in H. specialize (H (tk_num t) (in_map _ _ _ Ht)). lia.
        + inversion Hs as [|? ? _ H]; subst. rewrite Forall_forall in H. specialize (H (tk_num x) (in_map _ _ _ Hx)). lia.
        + inversion Hs; subst. auto. }
    rewrite E. destruct (negb (Nat.eqb (tk_id x) (tk_id t))); simpl; rewrite IH by auto; reflexivity. }
  apply G. auto.
Qed.
Lemma drop_other i t s : NoDup (map tk_id (id_live i)) -> In t (id_live i) -> s <> tk_signal t ->
  of_signal s (drop_token (Some (tk_id t)) (id_live i)) = of_signal s (id_live i).
Proof.
  intros Hn Ht Hs. unfold drop_token, of_signal. rewrite filter_comm. apply filter_all. intros x Hx. apply filter_In in Hx. destruct Hx as [Hx1 Hx2].
  apply N.eqb_eq in Hx2. apply negb_true_iff. apply Nat.eqb_neq. intro E. apply Hs. rewrite (id_unique i t x Hn Ht Hx1) by auto. auto.
Qed.
Lemma drop_in n t l : In t (drop_token (Some n) l) <-> In t l /\ tk_id t <> n.
Proof. unfold drop_token. rewrite filter_In, negb_true_iff, Nat.eqb_neq. reflexivity. Qed.
Lemma drop_sub o t l : In t (drop_token o l) -> In t l.
Proof. destruct o; simpl; [intro H; apply filter_In in H; tauto|auto]. Qed.

(* dropping what [a] holds, in the ideal and in the world *)
Lemma sim_erased w i a ca s m : sim w i -> con_at w a = Some ca -> living i a -> In s (id_signals i) ->
  m = (if is_sig (cn_signal ca) s then option_map (merase (cn_index ca)) (slots_of w s) else slots_of w s) ->
  m = Some (map slot_of (of_signal s (drop_token (held i a) (id_live i)))).
Proof.
  intros [Hd Hsl Hh Hf Hids Hnx Hal Hinj Hso] Ha Hl Hs ->. rewrite Hsl by exact Hs. unfold held. unfold living in Hl.
  destruct (mfind a (id_holds i)) as [[n|]|] eqn:E; [| |contradiction].
  - destruct (Hh a n E) as (t & Ht & <- & Ec). rewrite Ha in Ec. injection Ec as ->. cbn [cn_signal cn_index is_sig].
    destruct (N.eqb_spec s (tk_signal t)) as [->|Hne]; cbn [option_map].
    + rewrite erase_token; auto.
    + rewrite drop_other; auto.
  - rewrite (Hf a E) in Ha. injection Ha as <-. reflexivity.
Qed.

Lemma held_find i a n : held i a = Some n -> mfind a (id_holds i) = Some (Some n).
Proof. unfold held. destruct (mfind a (id_holds i)) as [[m|]|]; intros [= <-]; reflexivity. Qed.

Lemma sorted_app_last l x : StronglySorted N.lt l -> (forall y, In y l -> y < x) -> StronglySorted N.lt (l ++ [x]).
Proof.
  induction l as [|y l IH]; simpl; intros H1 H2; [repeat constructor|]. inversion H1; subst. constructor; [apply IH; auto|].
  apply Forall_app. split; [assumption|]. constructor; [apply H2; auto|constructor].
Qed.
Lemma minsert_last (k f : N) (m : nmap N) : (forall e, In e m -> fst e < k) -> minsert k f m = m ++ [(k, f)].
Proof.
  intro H. assert (F : mfind k m = None).
  { destruct (mfind k m) as [v|] eqn:E; [|reflexivity]. apply mfind_in' in E. specialize (H _ E). simpl in H. lia. }
  unfold minsert. rewrite F. clear F. induction m as [|[k' v'] m IH]; simpl; [reflexivity|].
  pose proof (H (k', v') (or_introl eq_refl)) as H0. simpl in H0. destruct (N.eqb_spec k k'); [lia|]. destruct (N.ltb_spec k k'); [lia|].
  f_equal. apply IH. intros; apply H; right; assumption.
Qed.
Lemma existsb_id n l : existsb (fun t => Nat.eqb (tk_id t) n) l = true <-> exists t, In t l /\ tk_id t = n.
Proof.
  rewrite existsb_exists. split; intros (t & A & B); exists t; (split; [exact A|]); apply Nat.eqb_eq; exact B.
Qed.

Lemma sim_step w i o : sim w i -> legal i o -> no_hole i o -> N.of_nat (id_next i) < 2 ^ 32 - 1 ->
  exists w', sop_step w o = Some w' /\ sim w' (ideal_step i o).
Proof.
  intros Hsim Hl Hh Hn. pose proof Hsim as [Hd Hsl Hhold Hfree Hids Hnx Hal Hinj Hso].
  destruct (dom_step w i o Hd Hl Hn) as (w' & E & Hd'). exists w'. split; [exact E|].
  assert (con : forall a, living i a -> exists c, con_at w a = Some c).
  { intros a Ha. apply (dom_conns w i Hd) in Ha. destruct (con_at w a) as [c|]; [eauto|contradiction]. }
  assert (nocon : forall a, ~ living i a -> con_at w a = None).
  { intros a Ha. destruct (con_at w a) as [c|] eqn:Ec; [|reflexivity]. exfalso. apply Ha. apply (dom_conns w i Hd). congruence. }
  pose proof (dom_inv w i Hd) as Hi.
  destruct o as [s|s|s a f|a|a b|a b tmp|a|a]; simpl in Hl; cbn [sop_step] in E.
  - assert (Hs' : mfind s (w_signals w) = None).
    { destruct (mfind s (w_signals w)) eqn:E2; [|reflexivity]. exfalso. apply Hl. apply (dom_signals w i Hd). congruence. }
    destruct (create_spec w s Hi Hs') as (w2 & E2 & I' & C' & S'). rewrite E in E2. injection E2 as <-.
    split; simpl; auto.
    + intros q Hq. rewrite S'. destruct (N.eqb_spec q s) as [->|].
      * destruct (of_signal s (id_live i)) as [|t l] eqn:Ef; [reflexivity|]. exfalso. apply Hl.
        assert (X : In t (of_signal s (id_live i))) by (rewrite Ef; left; reflexivity). apply of_signal_in in X. destruct X as [X <-]. auto.
      * destruct Hq; [congruence|]. auto.
    + intros x n H. rewrite C'. eauto.
    + intros x H. rewrite C'. auto.
  - apply (dom_signals w i Hd) in Hl. destruct (sig_destroy_spec w s Hi Hl) as (w2 & E2 & I' & C' & S'). rewrite E in E2. injection E2 as <-.
    assert (Hkeep : forall q, q <> s -> of_signal q (filter (fun t => negb (N.eqb (tk_signal t) s)) (id_live i)) = of_signal q (id_live i)).
    { intros q Hq. unfold of_signal. rewrite filter_comm. apply filter_all. intros x Hx. apply filter_In in Hx. destruct Hx as [_ Hx]. apply N.eqb_eq in Hx.
      apply negb_true_iff. apply N.eqb_neq. congruence. }
    split; auto; cbn [ideal_step id_signals id_live id_holds id_next].
    + intros q Hq. apply in_removed in Hq. destruct Hq as [Hq1 Hq2]. rewrite S'. destruct (N.eqb_spec q s); [contradiction|]. rewrite Hkeep by assumption. auto.
    + intros x n H. rewrite release_find in H. destruct (mfind x (id_holds i)) as [[m|]|] eqn:Ex; simpl in H; try discriminate.
      destruct (existsb _ _) eqn:Eb in H; [discriminate|]. injection H as ->. destruct (Hhold x n Ex) as (t & Ht & Hid & Hc). exists t.
      assert (Hts : tk_signal t <> s).
      { intro F. assert (X : existsb (fun t0 => Nat.eqb (tk_id t0) n) (of_signal s (id_live i)) = true).
        { apply existsb_id. exists t. split; [apply of_signal_in; auto|exact Hid]. } congruence. }
      split; [apply filter_In; split; [exact Ht|]; apply negb_true_iff, N.eqb_neq; exact Hts|]. split; [exact Hid|].
      rewrite C', Hc. simpl. destruct (N.eqb_spec s (tk_signal t)); [congruence|reflexivity].
    + intros x H. rewrite release_find in H. destruct (mfind x (id_holds i)) as [[m|]|] eqn:Ex; simpl in H; try discriminate.
      * destruct (existsb _ _) eqn:Eb in H; [|discriminate]. apply existsb_id in Eb. destruct Eb as (t & Ht & Hid). apply of_signal_in in Ht. destruct Ht as [Ht Hts].
        destruct (Hhold x m Ex) as (t' & Ht' & Hid' & Hc). rewrite C', Hc. assert (t' = t) by (apply (id_unique i); auto; congruence). subst t'. simpl. rewrite Hts, N.eqb_refl. reflexivity.
      * rewrite C', (Hfree x Ex). reflexivity.
    + apply nodup_map_filter. exact Hids.
    + intros t Ht. apply filter_In in Ht. apply Hnx. tauto.
    + intros t Ht. apply filter_In in Ht. destruct Ht as [Ht1 Ht2]. apply in_removed. split; [auto|]. apply negb_true_iff, N.eqb_neq in Ht2. exact Ht2.
    + intros x y n Hx Hy. rewrite release_find in Hx, Hy. destruct (mfind x (id_holds i)) as [[m|]|] eqn:Ex; simpl in Hx; try discriminate.
      destruct (existsb _ _) in Hx; [discriminate|]. injection Hx as ->.
      destruct (mfind y (id_holds i)) as [[m|]|] eqn:Ey; simpl in Hy; try discriminate. destruct (existsb _ _) in Hy; [discriminate|]. injection Hy as ->. eauto.
    + intro q. unfold of_signal. rewrite filter_comm. apply sorted_filter. apply Hso.
  - destruct Hl as [Hl1 Hl2]. pose proof Hl1 as Hl1'. apply (dom_signals w i Hd) in Hl1. destruct (mfind s (w_signals w)) as [g|] eqn:Eg; [|contradiction].
    pose proof (dom_size w i Hd s g Eg) as Hz.
    destruct (connect_spec w s a f g Hi Eg (nocon a Hl2)) as (w2 & E2 & I' & C' & S'); [lia|]. rewrite E in E2. injection E2 as <-.
    pose proof (Hsl s Hl1') as Hg. unfold slots_of in Hg. rewrite Eg in Hg. simpl in Hg. injection Hg as Hg.
    assert (Hsz : msize (sg_slots g) = length (of_signal s (id_live i))) by (unfold msize; rewrite Hg, map_length; reflexivity).
    simpl in Hh.
    set (num := N.of_nat (length (of_signal s (id_live i))) + 1) in *. rewrite Hsz in C', S'. fold num in C', S'.
    assert (Hnone : mfind a (id_holds i) = None) by (unfold living in Hl2; destruct (mfind a (id_holds i)); [exfalso; apply Hl2; discriminate|reflexivity]).
    assert (Hfresh : forall n x, mfind x (id_holds i) = Some (Some n) -> (n < id_next i)%nat).
    { intros n x Hx. destruct (Hhold x n Hx) as (t & Ht & <- & _). auto. }
    split; auto; cbn [ideal_step id_signals id_live id_holds id_next].
    + intros q Hq. rewrite S'. unfold of_signal. rewrite filter_app. cbn [filter tk_signal]. fold (of_signal q (id_live i)).
      destruct (N.eqb_spec q s) as [->|Hne].
      * rewrite N.eqb_refl. rewrite minsert_last.
        -- rewrite Hg, map_app. reflexivity.
        -- rewrite Hg. intros e He. apply in_map_iff in He. destruct He as (t & <- & Ht). simpl. specialize (Hh t Ht). unfold num. lia.
      * destruct (N.eqb_spec s q); [congruence|]. rewrite app_nil_r. auto.
    + intros x n Hx. rewrite mfind_mput in Hx. rewrite C'. destruct (N.eqb_spec x a) as [->|].
      * injection Hx as <-. eexists. split; [apply in_or_app; right; left; reflexivity|]. split; reflexivity.
      * destruct (Hhold x n Hx) as (t & Ht & Hid & Hc). exists t. split; [apply in_or_app; left; exact Ht|]. auto.
    + intros x Hx. rewrite mfind_mput in Hx. rewrite C'. destruct (N.eqb_spec x a); [discriminate|]. auto.
    + rewrite map_app. simpl.
      apply NoDup_rev in Hids. rewrite <- (rev_involutive (map tk_id (id_live i) ++ [id_next i])). apply NoDup_rev. rewrite rev_app_distr. simpl. constructor; [|exact Hids].
      rewrite <- in_rev. intro F. apply in_map_iff in F. destruct F as (t & Et & Ht). specialize (Hnx t Ht). lia.
    + intros t Ht. apply in_app_or in Ht. destruct Ht as [Ht|[<-|[]]]; [specialize (Hnx t Ht); lia|simpl; lia].
    + intros t Ht. apply in_app_or in Ht. destruct Ht as [Ht|[<-|[]]]; [auto|exact Hl1'].
    + intros x y n Hx Hy. rewrite mfind_mput in Hx, Hy. destruct (N.eqb_spec x a) as [E1|E1], (N.eqb_spec y a) as [E2'|E2']; try subst x; try subst y; auto.
      * injection Hx as <-. specialize (Hfresh _ y Hy). lia.
      * injection Hy as <-. specialize (Hfresh _ x Hx). lia.
      * eauto.
    + intro q. unfold of_signal. rewrite filter_app. cbn [filter tk_signal]. fold (of_signal q (id_live i)). destruct (N.eqb_spec s q) as [<-|Hne].
      * rewrite map_app. apply sorted_app_last; [apply Hso|]. intros y Hy. apply in_map_iff in Hy. destruct Hy as (t & <- & Ht). specialize (Hh t Ht). change (tk_num t < num). unfold num. lia.
      * rewrite app_nil_r. apply Hso.
  - destruct (default_spec w a Hi (nocon a Hl)) as (I' & C' & S'). injection E as <-.
    split; auto; cbn [ideal_step id_signals id_live id_holds id_next].
    + intros x n Hx. rewrite mfind_mput in Hx. rewrite C'. destruct (N.eqb_spec x a); [discriminate|]. eauto.
    + intros x Hx. rewrite mfind_mput in Hx. rewrite C'. destruct (N.eqb_spec x a); [reflexivity|]. auto.
    + intros x y n Hx Hy. rewrite mfind_mput in Hx, Hy. destruct (N.eqb_spec x a), (N.eqb_spec y a); try discriminate. eauto.
  - destruct Hl as [Hl1 Hl2]. destruct (con b Hl2) as [cb Hb]. destruct (move_spec w a b cb Hi (nocon a Hl1) Hb) as (w2 & E2 & I' & C' & S').
    rewrite E in E2. injection E2 as <-.
    assert (Hab : a <> b) by (intro F; subst; contradiction).
    split; auto; cbn [ideal_step id_signals id_live id_holds id_next].
    + intros q Hq. rewrite S'. auto.
    + intros x n Hx. rewrite !mfind_mput in Hx. rewrite C'. destruct (N.eqb_spec x b); [discriminate|]. destruct (N.eqb_spec x a) as [->|].
      * injection Hx as Hx. apply held_find in Hx. destruct (Hhold b n Hx) as (t & Ht & Hid & Hc). exists t. split; [exact Ht|]. split; [exact Hid|]. congruence.
      * eauto.
    + intros x Hx. rewrite !mfind_mput in Hx. rewrite C'. destruct (N.eqb_spec x b) as [E0|E0]; [subst x|].
      * destruct (N.eqb_spec b a); [congruence|reflexivity].
      * destruct (N.eqb_spec x a) as [E1|E1]; [subst x|auto]. injection Hx as Hx. unfold held in Hx. unfold living in Hl2.
        destruct (mfind b (id_holds i)) as [[m|]|] eqn:Eb; [discriminate| |contradiction]. rewrite (Hfree b Eb) in Hb. congruence.
    + intros x y n Hx Hy. rewrite !mfind_mput in Hx, Hy. destruct (N.eqb_spec x b), (N.eqb_spec y b); try discriminate.
      destruct (N.eqb_spec x a) as [E1|E1], (N.eqb_spec y a) as [E2'|E2']; try subst x; try subst y; auto.
      * injection Hx as Hx. apply held_find in Hx. exfalso. assert (y = b) by eauto. contradiction.
      * injection Hy as Hy. apply held_find in Hy. exfalso. assert (x = b) by eauto. contradiction.
      * eauto.
  - destruct Hl as (Hl1 & Hl2 & Hl3). destruct (con a Hl1) as [ca Ha]. destruct (con b Hl2) as [cb Hb].
    destruct (assign_spec w a b tmp ca cb Hi Ha Hb (nocon tmp Hl3)) as (w2 & E2 & I' & C' & S'). rewrite E in E2. injection E2 as <-.
    revert Hd'. cbn [ideal_step]. destruct (N.eqb_spec a b) as [->|Hab]; intro Hd'.
    + assert (C2 : forall q, con_at w' q = con_at w q).
      { intro q. rewrite C'. destruct (N.eqb_spec q b) as [->|]; [congruence|reflexivity]. }
      split; auto.
      * intros q Hq. rewrite S'. simpl. auto.
      * intros x n Hx. rewrite C2. eauto.
      * intros x Hx. rewrite C2. auto.
    + simpl in S'.
      assert (Hdrop : forall x t n, mfind x (id_holds i) = Some (Some n) -> x <> a -> In t (id_live i) -> tk_id t = n -> In t (drop_token (held i a) (id_live i))).
      { intros x t n Hx Hxa Ht Hid. destruct (held i a) as [m|] eqn:Eh; [|exact Ht]. apply drop_in. split; [exact Ht|]. apply held_find in Eh. intro F. apply Hxa. subst n. rewrite F in Hx. exact (Hinj x a m Hx Eh). }
      split; auto; cbn [id_signals id_live id_holds id_next].
      * intros q Hq. eapply sim_erased; [exact Hsim|exact Ha|exact Hl1|exact Hq|apply S'].
      * intros x n Hx. rewrite !mfind_mput in Hx. rewrite C'. destruct (N.eqb_spec x b); [discriminate|]. destruct (N.eqb_spec x a) as [->|].
        -- injection Hx as Hx. apply held_find in Hx. destruct (Hhold b n Hx) as (t & Ht & Hid & Hc). exists t. split; [eapply (Hdrop b t n); eauto|]. split; [exact Hid|]. congruence.
        -- destruct (Hhold x n Hx) as (t & Ht & Hid & Hc). exists t. split; [eapply (Hdrop x t n); eauto|]. auto.
      * intros x Hx. rewrite !mfind_mput in Hx. rewrite C'. destruct (N.eqb_spec x b) as [E0|E0]; [subst x|].
        -- destruct (N.eqb_spec b a); [congruence|reflexivity].
        -- destruct (N.eqb_spec x a) as [E1|E1]; [subst x|auto]. injection Hx as Hx. unfold held in Hx. unfold living in Hl2.
           destruct (mfind b (id_holds i)) as [[m|]|] eqn:Eb; [discriminate| |contradiction]. rewrite (Hfree b Eb) in Hb. congruence.
      * destruct (held i a); simpl; [apply nodup_map_filter|]; exact Hids.
      * intros t Ht. apply drop_sub in Ht. auto.
      * intros t Ht. apply drop_sub in Ht. auto.
      * intros x y n Hx Hy. rewrite !mfind_mput in Hx, Hy. destruct (N.eqb_spec x b), (N.eqb_spec y b); try discriminate.
        destruct (N.eqb_spec x a) as [E1|E1], (N.eqb_spec y a) as [E2'|E2']; try subst x; try subst y; auto.
        -- injection Hx as Hx. apply held_find in Hx. exfalso. assert (y = b) by eauto. contradiction.
        -- injection Hy as Hy. apply held_find in Hy. exfalso. assert (x = b) by eauto. contradiction.
        -- eauto.
      * intro q. destruct (held i a); simpl; [|apply Hso]. unfold of_signal. rewrite filter_comm. apply sorted_filter. apply Hso.
  - destruct (con a Hl) as [c Ha]. destruct (disconnect_spec w a c Hi Ha) as (w2 & E2 & I' & C' & S'). rewrite E in E2. injection E2 as <-.
    assert (Hdrop : forall x t n, mfind x (id_holds i) = Some (Some n) -> x <> a -> In t (id_live i) -> tk_id t = n -> In t (drop_token (held i a) (id_live i))).
    { intros x t n Hx Hxa Ht Hid. destruct (held i a) as [m|] eqn:Eh; [|exact Ht]. apply drop_in. split; [exact Ht|]. apply held_find in Eh. intro F. apply Hxa. subst n. rewrite F in Hx. exact (Hinj x a m Hx Eh). }
    split; auto; cbn [ideal_step id_signals id_live id_holds id_next].
    + intros q Hq. eapply sim_erased; [exact Hsim|exact Ha|exact Hl|exact Hq|apply S'].
    + intros x n Hx. rewrite mfind_mput in Hx. rewrite C'. destruct (N.eqb_spec x a); [discriminate|].
      destruct (Hhold x n Hx) as (t & Ht & Hid & Hc). exists t. split; [eapply (Hdrop x t n); eauto|]. auto.
    + intros x Hx. rewrite mfind_mput in Hx. rewrite C'. destruct (N.eqb_spec x a); [reflexivity|]. auto.
    + destruct (held i a); simpl; [apply nodup_map_filter|]; exact Hids.
    + intros t Ht. apply drop_sub in Ht. auto.
    + intros t Ht. apply drop_sub in Ht. auto.
    + intros x y n Hx Hy. rewrite mfind_mput in Hx, Hy. destruct (N.eqb_spec x a), (N.eqb_spec y a); try discriminate. eauto.
    + intro q. destruct (held i a); simpl; [|apply Hso]. unfold of_signal. rewrite filter_comm. apply sorted_filter. apply Hso.
  - destruct (con a Hl) as [c Ha]. destruct (destroy_spec w a c Hi Ha) as (w2 & E2 & I' & C' & S'). rewrite E in E2. injection E2 as <-.
    assert (Hdrop : forall x t n, mfind x (id_holds i) = Some (Some n) -> x <> a -> In t (id_live i) -> tk_id t = n -> In t (drop_token (held i a) (id_live i))).
    { intros x t n Hx Hxa Ht Hid. destruct (held i a) as [m|] eqn:Eh; [|exact Ht]. apply drop_in. split; [exact Ht|]. apply held_find in Eh. intro F. apply Hxa. subst n. rewrite F in Hx. exact (Hinj x a m Hx Eh). }
    split; auto; cbn [ideal_step id_signals id_live id_holds id_next].
    + intros q Hq. eapply sim_erased; [exact Hsim|exact Ha|exact Hl|exact Hq|apply S'].
    + intros x n Hx. rewrite merase_find in Hx. rewrite C'. destruct (N.eqb_spec x a); [discriminate|].
      destruct (Hhold x n Hx) as (t & Ht & Hid & Hc). exists t. split; [eapply (Hdrop x t n); eauto|]. auto.
    + intros x Hx. rewrite merase_find in Hx. rewrite C'. destruct (N.eqb_spec x a); [discriminate|]. auto.
    + destruct (held i a); simpl; [apply nodup_map_filter|]; exact Hids.
    + intros t Ht. apply drop_sub in Ht. auto.
    + intros t Ht. apply drop_sub in Ht. auto.
    + intros x y n Hx Hy. rewrite merase_find in Hx, Hy. destruct (N.eqb_spec x a), (N.eqb_spec y a); try discriminate. eauto.
    + intro q. destruct (held i a); simpl; [|apply Hso]. unfold of_signal. rewrite filter_comm. apply sorted_filter. apply Hso.
Qed.

Lemma sim_run l : forall w i, sim w i -> legal_all i l -> no_hole_all i l -> N.of_nat (id_next i + connects l) < 2 ^ 32 - 1 ->
  exists w', sops w l = Some w' /\ sim w' (fold_left ideal_step l i).
Proof.
  induction l as [|o l IH]; intros w i Hd Hl Hh Hn; simpl; [eexists; split; [reflexivity|exact Hd]|].
  destruct Hl as [Hl1 Hl2]. destruct Hh as [Hh1 Hh2]. rewrite connects_cons in Hn. destruct (sim_step w i o Hd Hl1 Hh1) as (w1 & E & D1); [lia|].
  rewrite E. cbn [obind]. apply IH; [exact D1|exact Hl2|exact Hh2|]. rewrite next_step. lia.
Qed.
Lemma sim_empty : sim empty_world no_signal.
Proof. split; [exact dom_empty| | | | | | | |]; simpl; try contradiction; try (intros; discriminate); constructor. Qed.

(* ---------- emission, the functions leaving the signal alone ---------- *)
Lemma next_key_app (l r : nmap N) k v k' v' : StronglySorted N.lt (map fst (l ++ (k, v) :: (k', v') :: r)) -> next_key k (l ++ (k, v) :: (k', v') :: r) = Some k'.
Proof.
  induction l as [|[a b] l IH]; simpl; intro H.
  - inversion H as [|? ? H1 H2]; subst. inversion H2; subst. rewrite N.ltb_irrefl. destruct (N.ltb_spec k k'); [reflexivity|lia].
  - inversion H as [|? ? H1 H2]; subst. rewrite Forall_forall in H2. assert (a < k) by (apply H2; rewrite map_app; apply in_or_app; right; left; reflexivity).
    destruct (N.ltb_spec k a); [lia|]. auto.
Qed.
Lemma next_key_end (l : nmap N) k v : StronglySorted N.lt (map fst (l ++ [(k, v)])) -> next_key k (l ++ [(k, v)]) = None.
Proof.
  induction l as [|[a b] l IH]; simpl; intro H.
  - rewrite N.ltb_irrefl. reflexivity.
  - inversion H as [|? ? H1 H2]; subst. rewrite Forall_forall in H2. assert (a < k) by (apply H2; rewrite map_app; apply in_or_app; right; left; reflexivity).
    destruct (N.ltb_spec k a); [lia|]. auto.
Qed.
Lemma mfind_mid (l r : nmap N) k v : StronglySorted N.lt (map fst (l ++ (k, v) :: r)) -> mfind k (l ++ (k, v) :: r) = Some v.
Proof. intro H. apply in_mfind; [exact H|]. apply in_or_app. right. left. reflexivity. Qed.

Lemma emit_calm act s : calm act s -> forall r l w fuel calls, (length r <= fuel)%nat -> slots_of w s = Some (l ++ r) -> StronglySorted N.lt (map fst (l ++ r)) ->
  exists w', emit_loop fuel act s w (length (l ++ r)) (length l) (option_map fst (nth_error r 0)) calls = Finished (calls ++ map snd r) w'.
Proof.
  intro Hc. induction r as [|[k v] r IH]; intros l w fuel calls Hf Hs Ho; simpl.
  - rewrite !app_nil_r. destruct fuel; simpl; eexists; reflexivity.
  - destruct fuel as [|n]; [simpl in Hf; lia|]. simpl.
    pose proof Hs as Hs0. unfold slots_of in Hs. destruct (mfind s (w_signals w)) as [g|] eqn:Eg; [|discriminate]. simpl in Hs. injection Hs as Hs.
    cbn [obind]. rewrite Hs, mfind_mid by exact Ho.
    pose proof (Hc v (length calls) w) as Hc1. rewrite Hs0 in Hc1. pose proof Hc1 as Hc2. unfold slots_of in Hc2.
    destruct (mfind s (w_signals (act v (length calls) w))) as [g1|]; [|discriminate]. simpl in Hc2. injection Hc2 as Hc2.
    rewrite Hc2. unfold msize. rewrite Nat.eqb_refl. rewrite mfind_mid by exact Ho.
    assert (En : next_key k (l ++ (k, v) :: r) = option_map fst (nth_error r 0)).
    { destruct r as [|[k' v'] r]; simpl; [apply next_key_end; exact Ho|apply next_key_app; exact Ho]. }
    rewrite En. specialize (IH (l ++ [(k, v)]) (act v (length calls) w) n (calls ++ [v])).
    rewrite <- app_assoc in IH. cbn [app] in IH. destruct IH as [w' IH]; [simpl in Hf; lia|exact Hc1|exact Ho|].
    assert (El : length (l ++ [(k, v)]) = S (length l)) by (rewrite app_length; simpl; lia). rewrite El in IH. exists w'. rewrite IH. rewrite <- app_assoc. reflexivity.
Qed.

(* ---------- functions that may disconnect themselves ---------- *)
Lemma merase_mid (l r : nmap N) k v : StronglySorted N.lt (map fst (l ++ (k, v) :: r)) -> merase k (l ++ (k, v) :: r) = l ++ r.
Proof.
  intro H. unfold merase. rewrite filter_app. simpl. rewrite N.eqb_refl. simpl. f_equal; apply filter_all; intros [k' v'] Hx; apply negb_true_iff, N.eqb_neq; simpl; intro F; subst k'.
  - induction l as [|[a b] l IH]; simpl in *; [contradiction|]. inversion H as [|? ? H1 H2]; subst. destruct Hx as [[= -> ->]|Hx]; [|auto].
    rewrite Forall_forall in H2. assert (k < k) by (apply H2; rewrite map_app; apply in_or_app; right; left; reflexivity). lia.
  - induction l as [|[a b] l IH]; simpl in *.
    + inversion H as [|? ? H1 H2]; subst. rewrite Forall_forall in H2. assert (k < k) by (apply H2; apply (in_map fst _ _ Hx)). lia.
    + inversion H; auto.
Qed.
Lemma sorted_remove_mid (l r : nmap N) x : StronglySorted N.lt (map fst (l ++ x :: r)) -> StronglySorted N.lt (map fst (l ++ r)).
Proof.
  induction l as [|y l IH]; simpl; intro H; inversion H as [|? ? H1 H2]; subst; [exact H1|]. constructor; [auto|].
  rewrite Forall_forall in *. intros z Hz. apply H2. rewrite map_app in *. apply in_app_or in Hz. apply in_or_app. destruct Hz; [left; assumption|right; right; assumption].
Qed.
Lemma key_of_value (l r : nmap N) k v k' : StronglySorted N.lt (map fst (l ++ (k, v) :: r)) -> NoDup (map snd (l ++ (k, v) :: r)) ->
  mfind k' (l ++ (k, v) :: r) = Some v -> k' = k.
Proof.
  intros Ho Hn Hf. apply mfind_in' in Hf. clear Ho.
  assert (G : forall m : nmap N, NoDup (map snd m) -> In (k', v) m -> In (k, v) m -> k' = k).
  { induction m as [|[a b] m IH]; simpl; intros H A B; [contradiction|]. inversion H; subst.
    destruct A as [[= -> ->]|A], B as [B|B]; auto.
    - congruence.
    - exfalso. apply H2. apply (in_map snd _ _ B).
    - injection B as -> ->. exfalso. apply H2. apply (in_map snd _ _ A). }
  eapply G; [exact Hn|exact Hf|]. apply in_or_app. right. left. reflexivity.
Qed.
Lemma nodup_remove_mid (l r : nmap N) x : NoDup (map snd (l ++ x :: r)) -> NoDup (map snd (l ++ r)).
Proof. rewrite !map_app. simpl. apply NoDup_remove_1. Qed.

Lemma emit_self act s : only_itself act s -> forall r l w fuel calls, (length r <= fuel)%nat -> slots_of w s = Some (l ++ r) ->
  StronglySorted N.lt (map fst (l ++ r)) -> NoDup (map snd (l ++ r)) ->
  exists w', emit_loop fuel act s w (length (l ++ r)) (length l) (option_map fst (nth_error r 0)) calls = Finished (calls ++ map snd r) w'.
Proof.
  intro Hc. induction r as [|[k v] r IH]; intros l w fuel calls Hf Hs Ho Hn; simpl.
  - rewrite !app_nil_r. destruct fuel; simpl; eexists; reflexivity.
  - destruct fuel as [|n]; [simpl in Hf; lia|]. simpl.
    pose proof Hs as Hs0. unfold slots_of in Hs. destruct (mfind s (w_signals w)) as [g|] eqn:Eg; [|discriminate]. simpl in Hs. injection Hs as Hs.
    cbn [obind]. rewrite Hs, mfind_mid by exact Ho.
    destruct (Hc v (length calls) w _ Hs0) as [Hc1|(k' & Hk & Hc1)]; pose proof Hc1 as Hc2; unfold slots_of in Hc2;
      (destruct (mfind s (w_signals (act v (length calls) w))) as [g1|]; [|discriminate]); simpl in Hc2; injection Hc2 as Hc2; rewrite Hc2; unfold msize.
    + rewrite Nat.eqb_refl. rewrite mfind_mid by exact Ho.
      assert (En : next_key k (l ++ (k, v) :: r) = option_map fst (nth_error r 0)).
      { destruct r as [|[k' v'] r]; simpl; [apply next_key_end; exact Ho|apply next_key_app; exact Ho]. }
      rewrite En. specialize (IH (l ++ [(k, v)]) (act v (length calls) w) n (calls ++ [v])).
      rewrite <- app_assoc in IH. cbn [app] in IH. destruct IH as [w' IH]; [simpl in Hf; lia|exact Hc1|exact Ho|exact Hn|].
      assert (El : length (l ++ [(k, v)]) = S (length l)) by (rewrite app_length; simpl; lia). rewrite El in IH. exists w'. rewrite IH. rewrite <- app_assoc. reflexivity.
    + assert (k' = k) by (eapply key_of_value; eassumption). subst k'. rewrite merase_mid in * by exact Ho.
      destruct (Nat.eqb_spec (length (l ++ (k, v) :: r)) (length (l ++ r))) as [F|_]; [rewrite !app_length in F; simpl in F; lia|].
      destruct (Nat.ltb_spec (length (l ++ r)) (length l)) as [F|_]; [rewrite app_length in F; lia|].
      specialize (IH l (act v (length calls) w) n (calls ++ [v])). destruct IH as [w' IH]; [simpl in Hf; lia|exact Hc1|eapply sorted_remove_mid; exact Ho|eapply nodup_remove_mid; exact Hn|].
      assert (En : nth_error (l ++ r) (length l) = nth_error r 0) by (rewrite nth_error_app2, Nat.sub_diag by lia; reflexivity).
      rewrite En. exists w'. rewrite IH, <- app_assoc. reflexivity.
Qed.

(* ---------- a connection made when there is a hole ---------- *)
Lemma in_mput_new {V} k (v : V) m : In (k, v) (mput k v m).
Proof. induction m as [|[a b] m IH]; simpl; [auto|]. destruct (N.eqb k a); [left; reflexivity|]. destruct (N.ltb k a); [left; reflexivity|right; exact IH]. Qed.
Lemma in_mput_old {V} k (v : V) m e : In e m -> fst e <> k -> In e (mput k v m).
Proof.
  induction m as [|[a b] m IH]; simpl; [contradiction|]. intros [<-|H] Hne; simpl in Hne.
  - destruct (N.eqb_spec k a); [congruence|]. destruct (N.ltb k a); simpl; auto.
  - destruct (N.eqb_spec k a); [right; exact H|]. destruct (N.ltb k a); [right; right; exact H|right; auto].
Qed.
Lemma hole_breaks (m : nmap N) (f k big x : N) : StronglySorted N.lt (map fst m) -> In (big, x) m -> k <= big ->
  ~ In f (map snd m) -> map snd (minsert k f m) <> map snd m ++ [f].
Proof.
  intros Ho Hb Hk Hf E. unfold minsert in E. destruct (mfind k m) as [v|] eqn:Ef.
  - apply (f_equal (@length N)) in E. rewrite app_length in E. simpl in E. lia.
  - assert (Hne : big <> k). { intro F. subst. rewrite (in_mfind k x m Ho Hb) in Ef. discriminate. }
    assert (Hso : StronglySorted N.lt (map fst (mput k f m))) by (apply (mput_sorted k f m); exact Ho).
    assert (Hbig : In (big, x) (mput k f m)) by (apply in_mput_old; [exact Hb|exact Hne]).
    assert (Hnew : In (k, f) (mput k f m)) by apply in_mput_new.
    assert (Hall : forall e, In e (mput k f m) -> snd e = f -> e = (k, f)).
    { intros [a b] He Hs. simpl in Hs. subst b. apply in_mput in He. destruct He as [[-> _]|He]; [reflexivity|]. exfalso. apply Hf. apply (in_map snd _ _ He). }
    destruct (exists_last (l := mput k f m)) as (l' & e & El); [apply mput_nonempty|].
    rewrite El, map_app in E. simpl in E. apply app_inj_tail in E. destruct E as [_ Es].
    assert (He : e = (k, f)) by (apply Hall; [rewrite El; apply in_or_app; right; left; reflexivity|exact Es]). subst e.
    rewrite El in Hbig. apply in_app_or in Hbig. destruct Hbig as [Hbig|[F|[]]]; [|congruence].
    rewrite El, map_app in Hso. simpl in Hso.
    assert (G : forall l, StronglySorted N.lt (l ++ [k]) -> forall y, In y l -> y < k).
    { induction l as [|y l IH]; simpl; intros H z Hz; [contradiction|]. inversion H as [|? ? H1 H2]; subst. rewrite Forall_forall in H2.
      destruct Hz as [<-|Hz]; [apply H2; apply in_or_app; right; left; reflexivity|auto]. }
    specialize (G _ Hso big). assert (In big (map fst l')) by apply (in_map fst _ _ Hbig). specialize (G H). lia.
Qed.
