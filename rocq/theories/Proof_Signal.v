From Verif Require Import Spec_Signal Proof_Layout Proof_Run3.
From Coq Require Import Lia PeanoNat Sorted.
Local Open Scope N_scope.

Definition con_at (w : sworld) (a : N) : option conn := mfind a (w_conns w).

Record inv (w : sworld) : Prop := {
  inv_conns : forall s g, mfind s (w_signals w) = Some g ->
      NoDup (sg_conns g) /\ (forall x, In x (sg_conns g) <-> exists c, con_at w x = Some c /\ cn_signal c = Some s);
  inv_con : forall a c, con_at w a = Some c ->
      match cn_signal c with Some s => cn_index c <> 0 /\ mfind s (w_signals w) <> None | None => c = null_conn end }.

Lemma find_put_signal w s g q : mfind q (w_signals (put_signal w s g)) = if N.eqb q s then Some g else mfind q (w_signals w).
Proof. apply mfind_mput. Qed.
Lemma con_put_conn w a c q : con_at (put_conn w a c) q = if N.eqb q a then Some c else con_at w q.
Proof. apply mfind_mput. Qed.

Lemma in_removed x a l : In x (filter (fun y => negb (N.eqb y a)) l) <-> In x l /\ x <> a.
Proof. rewrite filter_In, negb_true_iff, N.eqb_neq. reflexivity. Qed.

(* a world whose connections are all right but one connection object [a] not listed yet or any more *)
Lemma disconnect_spec w a c : inv w -> con_at w a = Some c -> exists w', con_disconnect w a = Some w' /\ inv w' /\
  (forall q, con_at w' q = if N.eqb q a then Some null_conn else con_at w q) /\
  (forall s, slots_of w' s = if match cn_signal c with Some s' => N.eqb s s' | None => false end
                             then option_map (merase (cn_index c)) (slots_of w s) else slots_of w s).
Proof.
  intros [Hc Hk] Ha. unfold con_disconnect. unfold con_at in Ha. rewrite Ha. cbn [obind].
  pose proof (Hk a c Ha) as K. destruct (cn_signal c) as [s0|] eqn:Es.
  - destruct K as [K1 K2]. destruct (N.eqb_spec (cn_index c) 0) as [|_]; [contradiction|].
    destruct (mfind s0 (w_signals w)) as [g|] eqn:Eg; [|contradiction].
    unfold sig_disconnect. rewrite Eg. cbn [obind]. unfold remConnection. rewrite find_put_signal, N.eqb_refl. cbn [obind sg_conns sg_slots].
    destruct (Hc s0 g Eg) as [Hn Hin].
    assert (Hina : In a (sg_conns g)) by (apply Hin; exists c; split; [exact Ha|exact Es]).
    rewrite (proj2 (existsb_eqb_In a (sg_conns g)) Hina). cbn [obind].
    eexists. split; [reflexivity|].
    set (w' := put_conn _ a null_conn).
    assert (Ec : forall q, con_at w' q = if N.eqb q a then Some null_conn else con_at w q).
    { intro q. unfold w'. rewrite con_put_conn. reflexivity. }
    assert (Eg' : forall q, mfind q (w_signals w') = if N.eqb q s0 then Some {| sg_slots := merase (cn_index c) (sg_slots g);
        sg_conns := filter (fun x => negb (N.eqb x a)) (sg_conns g) |} else mfind q (w_signals w)).
    { intro q. unfold w'. cbn [put_conn w_signals]. rewrite find_put_signal. destruct (N.eqb_spec q s0); [reflexivity|].
      rewrite find_put_signal. destruct (N.eqb_spec q s0); [contradiction|reflexivity]. }
    split; [|split].
    + split.
      * intros s g' Hg. rewrite Eg' in Hg. destruct (N.eqb_spec s s0) as [->|Hs].
        -- injection Hg as <-. cbn [sg_conns]. split; [apply NoDup_filter; exact Hn|]. intro x. rewrite in_removed, Hin. rewrite Ec.
           destruct (N.eqb_spec x a) as [->|Hx].
           ++ split; [intros [_ F]; contradiction|]. intros (c' & [= <-] & F). discriminate.
           ++ intuition.
        -- destruct (Hc s g' Hg) as [H1 H2]. split; [exact H1|]. intro x. rewrite H2, Ec. destruct (N.eqb_spec x a) as [->|Hx]; [|reflexivity].
           split; intros (c' & A & B).
           ++ unfold con_at in A. rewrite Ha in A. injection A as <-. congruence.
           ++ injection A as <-. discriminate.
      * intros b c' Hb. rewrite Ec in Hb. destruct (N.eqb_spec b a) as [->|Hne].
        -- injection Hb as <-. reflexivity.
        -- specialize (Hk b c' Hb). destruct (cn_signal c') as [s|]; [|exact Hk]. destruct Hk as [A B]. split; [exact A|].
           rewrite Eg'. destruct (N.eqb s s0); [discriminate|exact B].
    + exact Ec.
    + intro s. unfold slots_of. rewrite Eg'. destruct (N.eqb_spec s s0) as [->|]; [|reflexivity]. rewrite Eg. reflexivity.
  - exists w. split; [reflexivity|]. split; [split; assumption|]. split; [|reflexivity].
    intro q. destruct (N.eqb_spec q a) as [->|]; [|reflexivity]. unfold con_at. rewrite Ha, K. reflexivity.
Qed.

Lemma rem_spec w s a : (exists g, mfind s (w_signals w) = Some g /\ In a (sg_conns g)) ->
  exists w', remConnection w s a = Some w' /\ w_conns w' = w_conns w /\
   (forall q, mfind q (w_signals w') = if N.eqb q s
      then option_map (fun g => {| sg_slots := sg_slots g; sg_conns := filter (fun x => negb (N.eqb x a)) (sg_conns g) |}) (mfind q (w_signals w))
      else mfind q (w_signals w)).
Proof.
  intros (g & Hg & Hin). unfold remConnection. rewrite Hg. cbn [obind]. rewrite (proj2 (existsb_eqb_In a (sg_conns g)) Hin).
  eexists. split; [reflexivity|]. split; [reflexivity|]. intro q. rewrite find_put_signal.
  destruct (N.eqb_spec q s) as [->|]; [rewrite Hg; reflexivity|reflexivity].
Qed.
Lemma add_spec w s a : mfind s (w_signals w) <> None ->
  exists w', addConnection w s a = Some w' /\ w_conns w' = w_conns w /\
   (forall q, mfind q (w_signals w') = if N.eqb q s
      then option_map (fun g => {| sg_slots := sg_slots g; sg_conns := if existsb (N.eqb a) (sg_conns g) then sg_conns g else a :: sg_conns g |}) (mfind q (w_signals w))
      else mfind q (w_signals w)).
Proof.
  intro H. unfold addConnection. destruct (mfind s (w_signals w)) as [g|] eqn:Eg; [|contradiction]. cbn [obind].
  eexists. split; [reflexivity|]. split; [reflexivity|]. intro q. rewrite find_put_signal.
  destruct (N.eqb_spec q s) as [->|]; [rewrite Eg; reflexivity|reflexivity].
Qed.

(* conditional versions, over an optional signal *)
Definition is_sig (o : option N) (s : N) : bool := match o with Some s' => N.eqb s s' | None => false end.
Lemma is_sig_true o s : is_sig o s = true <-> o = Some s.
Proof. destruct o as [s'|]; simpl; [rewrite N.eqb_eq; split; congruence|split; discriminate]. Qed.
Lemma rem_opt w o a : (forall s, o = Some s -> exists g, mfind s (w_signals w) = Some g /\ In a (sg_conns g)) ->
  exists w', when_signal o (fun s => remConnection w s a) w = Some w' /\ w_conns w' = w_conns w /\
   (forall q, mfind q (w_signals w') = if is_sig o q
      then option_map (fun g => {| sg_slots := sg_slots g; sg_conns := filter (fun x => negb (N.eqb x a)) (sg_conns g) |}) (mfind q (w_signals w))
      else mfind q (w_signals w)).
Proof. intro H. destruct o as [s|]; simpl; [apply rem_spec; apply H; reflexivity|]. exists w. auto. Qed.
Lemma add_opt w o a : (forall s, o = Some s -> mfind s (w_signals w) <> None) ->
  exists w', when_signal o (fun s => addConnection w s a) w = Some w' /\ w_conns w' = w_conns w /\
   (forall q, mfind q (w_signals w') = if is_sig o q
      then option_map (fun g => {| sg_slots := sg_slots g; sg_conns := if existsb (N.eqb a) (sg_conns g) then sg_conns g else a :: sg_conns g |}) (mfind q (w_signals w))
      else mfind q (w_signals w)).
Proof. intro H. destruct o as [s|]; simpl; [apply add_spec; apply H; reflexivity|]. exists w. auto. Qed.

Lemma in_added x a l : In x (if existsb (N.eqb a) l then l else a :: l) <-> x = a \/ In x l.
Proof.
  destruct (existsb (N.eqb a) l) eqn:E; simpl.
  - apply existsb_eqb_In in E. split; [auto|]. intros [->|H]; assumption.
  - split; [intros [H|H]; auto|intros [H|H]; auto].
Qed.
Lemma nodup_added a l : NoDup l -> NoDup (if existsb (N.eqb a) l then l else a :: l).
Proof.
  intro H. destruct (existsb (N.eqb a) l) eqn:E; [exact H|]. constructor; [|exact H].
  intro F. apply existsb_eqb_In in F. congruence.
Qed.

Lemma swap_spec w l r cl cr : inv w -> l <> r -> con_at w l = Some cl -> con_at w r = Some cr ->
  exists w', con_swap w l r = Some w' /\ inv w' /\
  (forall q, con_at w' q = if N.eqb q l then Some cr else if N.eqb q r then Some cl else con_at w q) /\
  (forall s, slots_of w' s = slots_of w s).
Proof.
  intros [Hc Hk] Hne Hl Hr. unfold con_swap. unfold con_at in Hl, Hr. rewrite Hl, Hr. cbn [obind].
  assert (Sl : forall s, cn_signal cl = Some s -> exists g, mfind s (w_signals w) = Some g /\ In l (sg_conns g)).
  { intros s E. pose proof (Hk l cl Hl) as K. rewrite E in K. destruct K as [_ K].
    destruct (mfind s (w_signals w)) as [g|] eqn:Eg; [|contradiction]. exists g. split; [reflexivity|].
    apply (proj2 (Hc s g Eg)). exists cl. split; assumption. }
  assert (Sr : forall s, cn_signal cr = Some s -> exists g, mfind s (w_signals w) = Some g /\ In r (sg_conns g)).
  { intros s E. pose proof (Hk r cr Hr) as K. rewrite E in K. destruct K as [_ K].
    destruct (mfind s (w_signals w)) as [g|] eqn:Eg; [|contradiction]. exists g. split; [reflexivity|].
    apply (proj2 (Hc s g Eg)). exists cr. split; assumption. }
  destruct (rem_opt w (cn_signal cl) l Sl) as (w1 & E1 & C1 & G1). rewrite E1. cbn [obind].
  assert (Sr1 : forall s, cn_signal cr = Some s -> exists g, mfind s (w_signals w1) = Some g /\ In r (sg_conns g)).
  { intros s E. destruct (Sr s E) as (g & Eg & Hin). rewrite G1, Eg. destruct (is_sig (cn_signal cl) s); cbn [option_map].
    - eexists. split; [reflexivity|]. apply in_removed. split; [exact Hin|congruence].
    - eexists. split; [reflexivity|exact Hin]. }
  destruct (rem_opt w1 (cn_signal cr) r Sr1) as (w2 & E2 & C2 & G2). rewrite E2. cbn [obind]. cbv zeta.
  set (w3 := put_conn (put_conn w2 l cr) r cl).
  assert (G3 : forall q, mfind q (w_signals w3) = mfind q (w_signals w2)) by reflexivity.
  assert (S2 : forall s, mfind s (w_signals w) <> None -> mfind s (w_signals w2) <> None).
  { intros s H. rewrite G2. assert (mfind s (w_signals w1) <> None).
    { rewrite G1. destruct (is_sig (cn_signal cl) s); destruct (mfind s (w_signals w)); simpl; congruence. }
    destruct (is_sig (cn_signal cr) s); destruct (mfind s (w_signals w1)); simpl; congruence. }
  destruct (add_opt w3 (cn_signal cr) l) as (w4 & E4 & C4 & G4).
  { intros s E. rewrite G3. apply S2. destruct (Sr s E) as (g & Eg & _). congruence. }
  rewrite E4. cbn [obind].
  destruct (add_opt w4 (cn_signal cl) r) as (w5 & E5 & C5 & G5).
  { intros s E. rewrite G4, G3. assert (X : mfind s (w_signals w2) <> None) by (apply S2; destruct (Sl s E) as (g & Eg & _); congruence).
    destruct (is_sig (cn_signal cr) s); destruct (mfind s (w_signals w2)); simpl; congruence. }
  rewrite E5. exists w5. split; [reflexivity|].
  assert (Ec : forall q, con_at w5 q = if N.eqb q l then Some cr else if N.eqb q r then Some cl else con_at w q).
  { intro q. unfold con_at. rewrite C5, C4. change (con_at w3 q = if N.eqb q l then Some cr else if N.eqb q r then Some cl else con_at w q). unfold w3. rewrite !con_put_conn.
    unfold con_at. rewrite C2, C1. destruct (N.eqb_spec q r), (N.eqb_spec q l); try reflexivity. congruence. }
  assert (Es : forall s, slots_of w5 s = slots_of w s).
  { intro s. unfold slots_of. rewrite G5, G4, G3, G2, G1.
    destruct (is_sig (cn_signal cl) s), (is_sig (cn_signal cr) s), (mfind s (w_signals w)); reflexivity. }
  split; [|split; assumption]. split.
  - intros s g Hg. rewrite G5, G4, G3, G2, G1 in Hg.
    destruct (mfind s (w_signals w)) as [g0|] eqn:Eg0.
    2:{ destruct (is_sig (cn_signal cl) s), (is_sig (cn_signal cr) s); discriminate. }
    destruct (Hc s g0 Eg0) as [Hn Hin].
    assert (Hm : NoDup (sg_conns g) /\ forall x, In x (sg_conns g) <->
        (x = r /\ is_sig (cn_signal cl) s = true) \/ (x = l /\ is_sig (cn_signal cr) s = true) \/
        (In x (sg_conns g0) /\ ~ (x = l /\ is_sig (cn_signal cl) s = true) /\ ~ (x = r /\ is_sig (cn_signal cr) s = true))).
    { destruct (is_sig (cn_signal cl) s), (is_sig (cn_signal cr) s); cbn [option_map sg_conns sg_slots] in Hg; injection Hg as <-; cbn [sg_conns];
      (split; [repeat (first [apply nodup_added | apply NoDup_filter | exact Hn])|]); intro x; rewrite ?in_added, ?in_removed; intuition congruence. }
    destruct Hm as [Hm1 Hm2]. split; [exact Hm1|]. intro x. rewrite Hm2, Hin, !is_sig_true. rewrite Ec.
    destruct (N.eqb_spec x l) as [->|Hxl]; [|destruct (N.eqb_spec x r) as [->|Hxr]].
    + unfold con_at. rewrite Hl. split.
      * intros [[F _]|[[_ F]|((c & A & B) & D & _)]].
        -- congruence.
        -- exists cr. auto.
        -- injection A as <-. exfalso. apply D. auto.
      * intros (c & A & B). injection A as <-. auto.
    + unfold con_at. rewrite Hr. split.
      * intros [[_ F]|[[F _]|((c & A & B) & _ & D)]].
        -- exists cl. auto.
        -- congruence.
        -- injection A as <-. exfalso. apply D. auto.
      * intros (c & A & B). injection A as <-. auto.
    + intuition congruence.
  - intros a c Ha. rewrite Ec in Ha.
    assert (Si : forall s, mfind s (w_signals w5) <> None <-> mfind s (w_signals w) <> None).
    { intro s. specialize (Es s). unfold slots_of in Es. destruct (mfind s (w_signals w5)), (mfind s (w_signals w)); simpl in Es; try discriminate; split; congruence. }
    assert (K : exists b, con_at w b = Some c).
    { destruct (N.eqb a l); [exists r; unfold con_at; congruence|]. destruct (N.eqb a r); [exists l; unfold con_at; congruence|exists a; exact Ha]. }
    destruct K as [b Hb]. specialize (Hk b c Hb). destruct (cn_signal c); [|exact Hk]. rewrite Si. exact Hk.
Qed.

Lemma default_spec w a : inv w -> con_at w a = None -> inv (put_conn w a null_conn) /\
  (forall q, con_at (put_conn w a null_conn) q = if N.eqb q a then Some null_conn else con_at w q) /\
  (forall s, slots_of (put_conn w a null_conn) s = slots_of w s).
Proof.
  intros [Hc Hk] Ha. split; [|split; [intro; apply con_put_conn|reflexivity]]. split.
  - intros s g Hg. destruct (Hc s g Hg) as [H1 H2]. split; [exact H1|]. intro x. rewrite H2, con_put_conn.
    destruct (N.eqb_spec x a) as [->|]; [|reflexivity]. split; intros (c & A & B); [congruence|]. injection A as <-. discriminate.
  - intros b c. rewrite con_put_conn. destruct (N.eqb_spec b a) as [->|]; [intros [= <-]; reflexivity|apply Hk].
Qed.

Lemma move_spec w a b cb : inv w -> con_at w a = None -> con_at w b = Some cb ->
  exists w', con_move w a b = Some w' /\ inv w' /\
  (forall q, con_at w' q = if N.eqb q a then Some cb else if N.eqb q b then Some null_conn else con_at w q) /\
  (forall s, slots_of w' s = slots_of w s).
Proof.
  intros Hi Ha Hb. destruct (default_spec w a Hi Ha) as (H1 & H2 & H3).
  assert (Hne : a <> b) by congruence.
  destruct (swap_spec (put_conn w a null_conn) a b null_conn cb H1 Hne) as (w' & E & I' & C' & S').
  - rewrite H2, N.eqb_refl. reflexivity.
  - rewrite H2. destruct (N.eqb_spec b a); [congruence|exact Hb].
  - exists w'. split; [exact E|]. split; [exact I'|]. split.
    + intro q. rewrite C', H2. destruct (N.eqb_spec q a); reflexivity.
    + intro s. rewrite S', H3. reflexivity.
Qed.

Lemma destroy_spec w a c : inv w -> con_at w a = Some c -> exists w', con_destroy w a = Some w' /\ inv w' /\
  (forall q, con_at w' q = if N.eqb q a then None else con_at w q) /\
  (forall s, slots_of w' s = if is_sig (cn_signal c) s then option_map (merase (cn_index c)) (slots_of w s) else slots_of w s).
Proof.
  intros Hi Ha. destruct (disconnect_spec w a c Hi Ha) as (w' & E & [Hc Hk] & C' & S'). unfold con_destroy. rewrite E. cbn [obind].
  eexists. split; [reflexivity|]. set (w2 := {| w_signals := _; w_conns := _ |}).
  assert (C2 : forall q, con_at w2 q = if N.eqb q a then None else con_at w q).
  { intro q. unfold con_at, w2. cbn [w_conns]. rewrite merase_find. destruct (N.eqb_spec q a); [reflexivity|].
    fold (con_at w' q). rewrite C'. destruct (N.eqb_spec q a); [contradiction|reflexivity]. }
  split; [|split; [exact C2|exact S']]. split.
  - intros s g Hg. destruct (Hc s g Hg) as [H1 H2]. split; [exact H1|]. intro x. rewrite H2, C', C2.
    destruct (N.eqb_spec x a); [|reflexivity]. split; intros (c' & A & B); [injection A as <-; discriminate|discriminate].
  - intros b c' Hb. rewrite C2 in Hb. destruct (N.eqb_spec b a); [discriminate|]. apply (Hk b c'). rewrite C'.
    destruct (N.eqb_spec b a); [contradiction|exact Hb].
Qed.

Lemma assign_spec w a b tmp ca cb : inv w -> con_at w a = Some ca -> con_at w b = Some cb -> con_at w tmp = None ->
  exists w', con_assign w a b tmp = Some w' /\ inv w' /\
  (forall q, con_at w' q = if N.eqb q a then Some cb else if N.eqb q b then Some null_conn else con_at w q) /\
  (forall s, slots_of w' s = if andb (negb (N.eqb a b)) (is_sig (cn_signal ca) s) then option_map (merase (cn_index ca)) (slots_of w s) else slots_of w s).
Proof.
  intros Hi Ha Hb Ht. unfold con_assign.
  destruct (move_spec w tmp b cb Hi Ht Hb) as (w1 & E1 & I1 & C1 & S1). rewrite E1. cbn [obind].
  assert (Hat : a <> tmp) by congruence. assert (Hbt : b <> tmp) by congruence.
  set (ca1 := if N.eqb a b then null_conn else ca).
  destruct (swap_spec w1 a tmp ca1 cb I1 Hat) as (w2 & E2 & I2 & C2 & S2).
  { rewrite C1. destruct (N.eqb_spec a tmp); [contradiction|]. unfold ca1. destruct (N.eqb_spec a b); [reflexivity|exact Ha]. }
  { rewrite C1, N.eqb_refl. reflexivity. }
  rewrite E2. cbn [obind].
  destruct (destroy_spec w2 tmp ca1 I2) as (w3 & E3 & I3 & C3 & S3).
  { rewrite C2. destruct (N.eqb_spec tmp a); [congruence|]. rewrite N.eqb_refl. reflexivity. }
  exists w3. split; [exact E3|]. split; [exact I3|]. split.
  - intro q. rewrite C3, C2, C1. destruct (N.eqb_spec q tmp) as [->|Hq].
    + destruct (N.eqb_spec tmp a); [congruence|]. destruct (N.eqb_spec tmp b); [congruence|]. symmetry. exact Ht.
    + reflexivity.
  - intro s. rewrite S3, S2, S1. unfold ca1. destruct (N.eqb_spec a b); reflexivity.
Qed.

Lemma connect_spec w s a f g : inv w -> mfind s (w_signals w) = Some g -> con_at w a = None -> N.of_nat (msize (sg_slots g)) < 2 ^ 32 - 1 ->
  let k := N.of_nat (msize (sg_slots g)) + 1 in
  exists w', sig_connect w s a f = Some w' /\ inv w' /\
  (forall q, con_at w' q = if N.eqb q a then Some {| cn_index := k; cn_signal := Some s |} else con_at w q) /\
  (forall s', slots_of w' s' = if N.eqb s' s then Some (minsert k f (sg_slots g)) else slots_of w s').
Proof.
  intros [Hc Hk] Hg Ha Hsz k. unfold sig_connect. rewrite Hg. cbn [obind].
  assert (Eu : u32 (u32 (N.of_nat (msize (sg_slots g))) + 1) = k).
  { unfold u32. rewrite (N.mod_small (N.of_nat _)) by lia. apply N.mod_small. unfold k. lia. }
  rewrite Eu. cbv zeta.
  set (w1 := put_conn _ a _).
  assert (Eg1 : forall q, mfind q (w_signals w1) = if N.eqb q s then Some {| sg_slots := minsert k f (sg_slots g); sg_conns := sg_conns g |} else mfind q (w_signals w)).
  { intro q. unfold w1. cbn [put_conn w_signals]. apply find_put_signal. }
  destruct (add_spec w1 s a) as (w2 & E2 & C2 & G2).
  { rewrite Eg1, N.eqb_refl. discriminate. }
  exists w2. split; [exact E2|].
  assert (Ec : forall q, con_at w2 q = if N.eqb q a then Some {| cn_index := k; cn_signal := Some s |} else con_at w q).
  { intro q. unfold con_at. rewrite C2. exact (con_put_conn (put_signal w s _) a _ q). }
  assert (Eg2 : forall q, mfind q (w_signals w2) = if N.eqb q s then Some {| sg_slots := minsert k f (sg_slots g); sg_conns := if existsb (N.eqb a) (sg_conns g) then sg_conns g else a :: sg_conns g |} else mfind q (w_signals w)).
  { intro q. rewrite G2, Eg1. destruct (N.eqb q s); reflexivity. }
  split; [|split; [exact Ec|]].
  - split.
    + intros q g' Hq. rewrite Eg2 in Hq. destruct (N.eqb_spec q s) as [->|Hne].
      * injection Hq as <-. cbn [sg_conns]. destruct (Hc s g Hg) as [H1 H2]. split; [apply nodup_added; exact H1|].
        intro x. rewrite in_added, H2, Ec. destruct (N.eqb_spec x a) as [->|].
        -- split; [intros _; eexists; split; reflexivity|auto].
        -- intuition.
      * destruct (Hc q g' Hq) as [H1 H2]. split; [exact H1|]. intro x. rewrite H2, Ec. destruct (N.eqb_spec x a) as [->|]; [|reflexivity].
        split; intros (c & A & B); [congruence|]. injection A as <-. simpl in B. congruence.
    + intros b c Hb. rewrite Ec in Hb. assert (S2 : forall q, mfind q (w_signals w) <> None -> mfind q (w_signals w2) <> None).
      { intros q H. rewrite Eg2. destruct (N.eqb q s); [discriminate|exact H]. }
      destruct (N.eqb_spec b a) as [->|].
      * injection Hb as <-. simpl. split; [unfold k; lia|]. apply S2. congruence.
      * specialize (Hk b c Hb). destruct (cn_signal c) as [q|]; [|exact Hk]. destruct Hk; auto.
  - intro q. unfold slots_of. rewrite Eg2. destruct (N.eqb q s); reflexivity.
Qed.

Lemma create_spec w s : inv w -> mfind s (w_signals w) = None -> exists w', sig_create w s = Some w' /\ inv w' /\
  (forall q, con_at w' q = con_at w q) /\ (forall q, slots_of w' q = if N.eqb q s then Some [] else slots_of w q).
Proof.
  intros [Hc Hk] Hs. eexists. split; [reflexivity|]. split; [|split; [reflexivity|]].
  - split.
    + intros q g Hg. rewrite find_put_signal in Hg. destruct (N.eqb_spec q s) as [->|].
      * injection Hg as <-. simpl. split; [constructor|]. intro x. split; [contradiction|]. intros (c & A & B).
        specialize (Hk x c A). rewrite B in Hk. destruct Hk. congruence.
      * exact (Hc q g Hg).
    + intros a c Ha. specialize (Hk a c Ha). destruct (cn_signal c) as [q|]; [|exact Hk]. rewrite find_put_signal. destruct Hk. split; [assumption|].
      destruct (N.eqb q s); [discriminate|assumption].
  - intro q. unfold slots_of. rewrite find_put_signal. destruct (N.eqb q s); reflexivity.
Qed.

Lemma remove_length a l : NoDup l -> In a l -> length l = S (length (filter (fun x => negb (N.eqb x a)) l)).
Proof.
  induction l as [|x l IH]; simpl; intros Hn Hin; [contradiction|]. inversion Hn; subst.
  destruct (N.eqb_spec x a) as [->|Hne]; simpl.
  - f_equal. symmetry. f_equal. clear IH Hin Hn. induction l as [|y l IH]; simpl; [reflexivity|].
    destruct (N.eqb_spec y a) as [->|]; simpl; [exfalso; apply H1; left; reflexivity|]. f_equal. apply IH; [intro; apply H1; right; assumption|inversion H2; assumption].
  - f_equal. apply IH; [assumption|]. destruct Hin; [congruence|assumption].
Qed.

Lemma kill_loop n : forall w s g, inv w -> mfind s (w_signals w) = Some g -> length (sg_conns g) = n ->
  exists w' g', sig_kill_loop n w s = Some w' /\ inv w' /\ mfind s (w_signals w') = Some g' /\ sg_conns g' = [] /\
  (forall q, con_at w' q = match con_at w q with Some c => if is_sig (cn_signal c) s then Some null_conn else Some c | None => None end) /\
  (forall q, q <> s -> slots_of w' q = slots_of w q).
Proof.
  induction n as [|n IH]; intros w s g Hi Hg Hlen; simpl; rewrite Hg; cbn [obind].
  - destruct (sg_conns g) as [|x l] eqn:E; [|discriminate]. exists w, g. split; [reflexivity|]. split; [exact Hi|]. split; [exact Hg|]. split; [exact E|].
    split; [|reflexivity]. intro q. destruct (con_at w q) as [c|] eqn:Ec; [|reflexivity]. destruct (is_sig (cn_signal c) s) eqn:Es; [|reflexivity].
    apply is_sig_true in Es. exfalso. assert (F : In q (sg_conns g)) by (apply (proj2 (inv_conns w Hi s g Hg)); exists c; split; assumption).
    rewrite E in F. contradiction.
  - destruct (sg_conns g) as [|a l] eqn:E; [discriminate|].
    destruct (inv_conns w Hi s g Hg) as [Hn Hin].
    destruct (proj1 (Hin a)) as (c & Hc & Hs); [rewrite E; left; reflexivity|].
    pose proof Hc as Hc0. pose proof (inv_con w Hi a c Hc) as K. rewrite Hs in K. destruct K as [K1 _].
    destruct (disconnect_spec w a c Hi Hc) as (w1 & E1 & I1 & C1 & S1). rewrite E1. cbn [obind].
    rewrite Hs in S1.
    assert (Hg1 : exists g1, mfind s (w_signals w1) = Some g1).
    { specialize (S1 s). rewrite N.eqb_refl in S1. unfold slots_of in S1. rewrite Hg in S1. simpl in S1. destruct (mfind s (w_signals w1)) as [g1|]; [eauto|discriminate]. }
    destruct Hg1 as [g1 Hg1].
    assert (Hl1 : length (sg_conns g1) = n).
    { assert (P : forall x, In x (sg_conns g1) <-> In x (filter (fun y => negb (N.eqb y a)) (sg_conns g))).
      { intro x. rewrite (proj2 (inv_conns w1 I1 s g1 Hg1)), in_removed, Hin, C1. destruct (N.eqb_spec x a) as [->|].
        - split; [intros (c' & [= <-] & F); discriminate|intros [_ F]; contradiction].
        - intuition. }
      assert (Q : length (sg_conns g1) = length (filter (fun y => negb (N.eqb y a)) (sg_conns g))).
      { apply Nat.le_antisymm; apply NoDup_incl_length.
        - exact (proj1 (inv_conns w1 I1 s g1 Hg1)).
        - intros x Hx. apply P. exact Hx.
        - apply NoDup_filter. exact Hn.
        - intros x Hx. apply P. exact Hx. }
      rewrite Q. pose proof (remove_length a (sg_conns g) Hn) as L. rewrite E in L at 1. specialize (L (or_introl eq_refl)). rewrite E in L at 1. simpl in Hlen. simpl length in L. lia. }
    destruct (IH w1 s g1 I1 Hg1 Hl1) as (w2 & g2 & E2 & I2 & Hg2 & Hl2 & C2 & S2).
    exists w2, g2. split; [exact E2|]. split; [exact I2|]. split; [exact Hg2|]. split; [exact Hl2|]. split.
    + intro q. rewrite C2, C1. destruct (N.eqb_spec q a) as [->|]; [|reflexivity]. rewrite Hc0. rewrite Hs. simpl. rewrite N.eqb_refl. reflexivity.
    + intros q Hq. rewrite S2 by exact Hq. rewrite S1. destruct (N.eqb_spec q s); [contradiction|reflexivity].
Qed.

Lemma sig_destroy_spec w s : inv w -> mfind s (w_signals w) <> None -> exists w', sig_destroy w s = Some w' /\ inv w' /\
  (forall q, con_at w' q = match con_at w q with Some c => if is_sig (cn_signal c) s then Some null_conn else Some c | None => None end) /\
  (forall q, slots_of w' q = if N.eqb q s then None else slots_of w q).
Proof.
  intros Hi Hs. destruct (mfind s (w_signals w)) as [g|] eqn:Eg; [|contradiction]. unfold sig_destroy. rewrite Eg. cbn [obind].
  destruct (kill_loop _ w s g Hi Eg eq_refl) as (w' & g' & E & I' & Hg' & Hl' & C' & S'). rewrite E. cbn [obind].
  eexists. split; [reflexivity|]. split; [|split].
  - split; cbn [w_signals w_conns].
    + intros q g2 Hq. rewrite merase_find in Hq. destruct (N.eqb_spec q s); [discriminate|]. exact (inv_conns w' I' q g2 Hq).
    + intros a c Ha. pose proof (inv_con w' I' a c Ha) as K. destruct (cn_signal c) as [q|] eqn:Eq; [|exact K]. destruct K as [K1 K2]. split; [exact K1|].
      rewrite merase_find. destruct (N.eqb_spec q s) as [->|]; [|exact K2].
      assert (F : In a (sg_conns g')) by (apply (proj2 (inv_conns w' I' s g' Hg')); exists c; split; [exact Ha|exact Eq]). rewrite Hl' in F. contradiction.
  - exact C'.
  - intro q. unfold slots_of. cbn [w_signals]. rewrite merase_find. destruct (N.eqb_spec q s); [reflexivity|]. apply S'. assumption.
Qed.

Lemma inv_empty : inv empty_world.
Proof. split; intros; discriminate. Qed.
