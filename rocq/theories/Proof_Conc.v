(* Locking discipline: no race, no deadlock, and the effect of a call at one instant. *)
From Verif Require Import Spec_Conc.
From Coq Require Import PeanoNat.
Local Open Scope N_scope.

Section Locks.
Context {cell call result : Type}.
Notation Code := (code cell result).
Notation Machine := (machine cell result).
Context (body : call -> Code) (client : nat -> list result -> option call) (supply : nat -> nat -> option N) (guard : N -> N).

(* Two-phase locking with ordered mutexes, every container accessed under its mutex. *)
Fixpoint wl (H : list N) (grow : bool) (k : Code) : Prop :=
  match k with
  | Done _ => H = []
  | Acquire m k => grow = true /\ (forall h, In h H -> h < m) /\ wl (m :: H) true k
  | Release m k => In m H /\ wl (remove N.eq_dec m H) false k
  | Access c w f k => In (guard c) H /\ forall v, wl H grow (k v)
  | Make o k => forall x, wl H grow (k x)
  | Free _ k => wl H grow k
  end.

Notation out := ((N -> cell) * list event * nat * result)%type.
Definition st (x : out) : N -> cell := fst (fst (fst x)).
Definition rest_of (x : out) : list event * nat * result := (snd (fst (fst x)), snd (fst x), snd x).
Definition same (x y : out) : Prop := (forall c, st x c = st y c) /\ rest_of x = rest_of y.
Lemma same_trans x y z : same x y -> same y z -> same x z.
Proof. intros [A B] [C D]. split; [intro c; rewrite A; apply C|congruence]. Qed.

Lemma put_same (s : N -> cell) c x : put_cell s c x c = x. Proof. unfold put_cell. rewrite N.eqb_refl. reflexivity. Qed.
Lemma put_other (s : N -> cell) c x d : c <> d -> put_cell s c x d = s d.
Proof. intro H. unfold put_cell. destruct (N.eqb_spec c d); [contradiction|reflexivity]. Qed.

Lemma alone_ext t : forall k s s' log used, (forall c, s c = s' c) -> same (alone supply t k s log used) (alone supply t k s' log used).
Proof.
  induction k as [r|m k IH|m k IH|X c w f k IH|o k IH|h k IH]; intros s s' log used E; cbn [alone]; try (apply IH; exact E).
  - split; [exact E|reflexivity].
  - rewrite (E c). destruct (f (s' c)) as [x v]. apply IH. intro d. destruct w; [|apply E]. unfold put_cell. destruct (N.eqb c d); [reflexivity|apply E].
Qed.
Lemma alone_agree t : forall k H s s' log used, wl H false k -> (forall c, In (guard c) H -> s c = s' c) ->
  rest_of (alone supply t k s log used) = rest_of (alone supply t k s' log used) /\
  (forall c, In (guard c) H -> st (alone supply t k s log used) c = st (alone supply t k s' log used) c) /\
  (forall c, ~ In (guard c) H -> st (alone supply t k s log used) c = s c).
Proof.
  induction k as [r|m k IH|m k IH|X c w f k IH|o k IH|h k IH]; intros H s s' log used W E; cbn [alone wl] in *.
  - split; [reflexivity|]. split; [exact E|reflexivity].
  - destruct W as [W _]. discriminate W.
  - destruct W as [Hm W]. destruct (IH (remove N.eq_dec m H) s s' log used W) as (A & B & C).
    { intros c Hc. apply E. apply (in_remove N.eq_dec) in Hc. tauto. }
    destruct (IH (remove N.eq_dec m H) s' s log used W) as (_ & _ & C').
    { intros c Hc. symmetry. apply E. apply (in_remove N.eq_dec) in Hc. tauto. }
    split; [exact A|]. split.
    + intros c Hc. destruct (N.eq_dec (guard c) m) as [G|G].
      * assert (Q : ~ In (guard c) (remove N.eq_dec m H)) by (rewrite G; apply remove_In). rewrite C, C' by exact Q. apply E, Hc.
      * apply B. apply in_in_remove; assumption.
    + intros c Hc. apply C. intro Q. apply (in_remove N.eq_dec) in Q. tauto.
  - destruct W as [Hc W]. rewrite (E c Hc). destruct (f (s' c)) as [x v]. set (s1 := if w then put_cell s c x else s). set (s2 := if w then put_cell s' c x else s').
    destruct (IH v H s1 s2 log used (W v)) as (A & B & C).
    { intros d Hd. unfold s1, s2. destruct w; [|apply E, Hd]. unfold put_cell. destruct (N.eqb c d); [reflexivity|apply E, Hd]. }
    split; [exact A|]. split; [exact B|]. intros d Hd. rewrite (C d Hd). unfold s1. destruct w; [|reflexivity]. apply put_other. intros <-. contradiction.
  - apply IH; [apply W|exact E].
  - apply IH; [apply W|exact E].
Qed.

Definition mix (H : list N) (s a : N -> cell) : N -> cell := fun c => if in_dec N.eq_dec (guard c) H then s c else a c.
Lemma mix_in H s a c : In (guard c) H -> mix H s a c = s c. Proof. intro I. unfold mix. destruct (in_dec _ _ _); [reflexivity|contradiction]. Qed.
Lemma mix_out H s a c : ~ In (guard c) H -> mix H s a c = a c. Proof. intro I. unfold mix. destruct (in_dec _ _ _); [contradiction|reflexivity]. Qed.

Notation AM := (amachine cell call result).
Inductive linked (M : Machine) (A : AM) (t : nat) (th : thread cell result) (ath : athread call result) : Prop :=
| lk_idle : th_code th = None -> at_phase ath = Idle -> th_log th = at_log ath -> th_used th = at_used ath ->
    (forall m, mc_owner M m <> Some t) -> linked M A t th ath
| lk_grow c H k : th_code th = Some k -> at_phase ath = Called c -> wl H true k -> NoDup H -> (forall m, mc_owner M m = Some t <-> In m H) ->
    (forall a, (forall d, In (guard d) H -> a d = am_cells A d) ->
       same (alone supply t (body c) a (at_log ath) (at_used ath)) (alone supply t k (mix H (mc_cells M) a) (th_log th) (th_used th))) -> linked M A t th ath
| lk_shrink r H k : th_code th = Some k -> at_phase ath = Answered r -> wl H false k -> NoDup H -> (forall m, mc_owner M m = Some t <-> In m H) ->
    rest_of (alone supply t k (mc_cells M) (th_log th) (th_used th)) = (at_log ath, at_used ath, r) ->
    (forall d, In (guard d) H -> st (alone supply t k (mc_cells M) (th_log th) (th_used th)) d = am_cells A d) -> linked M A t th ath.

Definition related (M : Machine) (A : AM) : Prop :=
  length (mc_threads M) = length (am_threads A) /\
  (forall t th ath, nth_error (mc_threads M) t = Some th -> nth_error (am_threads A) t = Some ath -> linked M A t th ath /\ th_results th = at_results ath) /\
  (forall c, mc_owner M (guard c) = None -> mc_cells M c = am_cells A c) /\
  (forall m t, mc_owner M m = Some t -> (t < length (mc_threads M))%nat).

(* The other threads. *)
Lemma linked_frame M A M' A' t th ath : linked M A t th ath ->
  (forall m, mc_owner M' m = Some t <-> mc_owner M m = Some t) ->
  (forall c, mc_owner M (guard c) = Some t -> mc_cells M' c = mc_cells M c /\ am_cells A' c = am_cells A c) -> linked M' A' t th ath.
Proof.
  intros L O C. destruct L as [E P L U N|c H k E P W D I G|r H k E P W D I R S].
  - apply lk_idle; try assumption. intros m Hm. apply O in Hm. exact (N m Hm).
  - apply (lk_grow M' A' t th ath c H k); try assumption; [intro m; rewrite O; apply I|].
    intros a Ha. eapply same_trans; [apply G|].
    + intros d Hd. rewrite (Ha d Hd). apply C, I, Hd.
    + apply alone_ext. intro d. unfold mix. destruct (in_dec _ _ _) as [Q|Q]; [|reflexivity]. symmetry. apply C, I, Q.
  - destruct (alone_agree t k H (mc_cells M') (mc_cells M) (th_log th) (th_used th) W) as (X & Y & _).
    { intros d Hd. apply C, I, Hd. }
    apply (lk_shrink M' A' t th ath r H k); try assumption; [intro m; rewrite O; apply I|rewrite X; exact R|].
    intros d Hd. rewrite (Y d Hd), (S d Hd). symmetry. apply C, I, Hd.
Qed.

Lemma nth_put {B} (l : list B) t x u : (t < length l)%nat -> nth_error (firstn t l ++ x :: skipn (Datatypes.S t) l) u = if Nat.eqb t u then Some x else nth_error l u.
Proof.
  revert t u. induction l as [|y l IH]; intros t u H; [cbn in H; lia|]. destruct t as [|t]; [destruct u; reflexivity|]. destruct u as [|u]; [reflexivity|].
  cbn [length] in H. cbn [firstn skipn app nth_error Nat.eqb]. apply (IH t u). lia.
Qed.
Lemma length_put {B} (l : list B) t x : (t < length l)%nat -> length (firstn t l ++ x :: skipn (Datatypes.S t) l) = length l.
Proof. intro H. rewrite app_length, firstn_length. cbn [length]. rewrite skipn_length. lia. Qed.
Lemma put_put {B} (l : list B) t x y : (t < length l)%nat ->
  firstn t (firstn t l ++ x :: skipn (Datatypes.S t) l) ++ y :: skipn (Datatypes.S t) (firstn t l ++ x :: skipn (Datatypes.S t) l) = firstn t l ++ y :: skipn (Datatypes.S t) l.
Proof.
  revert t. induction l as [|z l IH]; intros [|t] H; cbn [length] in H; try lia; [reflexivity|].
  cbn [firstn app skipn] in *. f_equal. apply (IH t). lia.
Qed.
Lemma put_self {B} (l : list B) t x : nth_error l t = Some x -> l = firstn t l ++ x :: skipn (Datatypes.S t) l.
Proof. revert t. induction l as [|y l IH]; intros [|t] E; try discriminate; cbn in *; [congruence|f_equal; apply IH, E]. Qed.
Lemma nth_lt {B} (l : list B) t x : nth_error l t = Some x -> (t < length l)%nat.
Proof. intro H. apply nth_error_Some. rewrite H. discriminate. Qed.

(* A step of thread t that changes the machines on what t owns only. *)
Lemma related_put M A M' A' t th' ath' :
  related M A -> (t < length (mc_threads M))%nat ->
  mc_threads M' = put_thread (mc_threads M) t th' -> am_threads A' = put_athread (am_threads A) t ath' ->
  (forall u m, u <> t -> (mc_owner M' m = Some u <-> mc_owner M m = Some u)) ->
  (forall c u, mc_owner M (guard c) = Some u -> u <> t -> mc_cells M' c = mc_cells M c /\ am_cells A' c = am_cells A c) ->
  (forall c, mc_owner M' (guard c) = None -> mc_cells M' c = am_cells A' c) ->
  linked M' A' t th' ath' -> th_results th' = at_results ath' -> related M' A'.
Proof.
  intros (L & T & C & B) Ht E1 E2 O K N Lk Rs. unfold put_thread in E1. unfold put_athread in E2.
  assert (Ht' : (t < length (am_threads A))%nat) by lia.
  split; [rewrite E1, E2, !length_put by assumption; exact L|]. split; [|split; [exact N|]].
  - intros u th ath H1 H2. rewrite E1, nth_put in H1 by assumption. rewrite E2, nth_put in H2 by assumption.
    destruct (Nat.eqb_spec t u) as [<-|Hu].
    + injection H1 as <-. injection H2 as <-. auto.
    + destruct (T u th ath H1 H2) as [X Y]. split; [|exact Y]. apply (linked_frame M A M' A' u th ath X).
      * intro m. apply O. congruence.
      * intros c Hc. apply (K c u Hc). congruence.
  - intros m u Hm. rewrite E1, length_put by assumption. destruct (Nat.eq_dec u t) as [->|Hu]; [exact Ht|]. apply (B m u). apply (O u m Hu), Hm.
Qed.

Context (Bodies : forall c, wl [] true (body c)).

(* Every step is matched by at most two steps of the instantaneous machine. *)
Lemma step_simulates M A t M' l : related M A -> step body client supply t M = Some (M', l) ->
  exists sched A', arun body client supply sched A = (A', l) /\ related M' A'.
Proof.
  intros R S. pose proof R as (Len & T & C & B). unfold step in S. destruct (nth_error (mc_threads M) t) as [th|] eqn:Hth; [|discriminate].
  pose proof (nth_lt _ _ _ Hth) as Ht. assert (Ht' : (t < length (am_threads A))%nat) by lia.
  destruct (nth_error (am_threads A) t) as [ath|] eqn:Hath; [|apply nth_error_None in Hath; lia].
  destruct (T t th ath Hth Hath) as [Lk Rs]. destruct (th_code th) as [k|] eqn:Ek.
  2: { (* a call begins *)
    destruct Lk as [E P Lg U N|? ? ? E|? ? ? E]; try congruence. destruct (client t (th_results th)) as [x|] eqn:Ex; [|discriminate]. injection S as <- <-.
    exists [t]. eexists. split.
    - cbn [arun]. unfold astep. rewrite Hath, P, <- Rs, Ex. rewrite app_nil_r. reflexivity.
    - eapply related_put; try exact R; try exact Ht; try reflexivity; cbn [mc_owner mc_cells am_cells]; try tauto; try exact C.
      + apply (lk_grow _ _ _ _ _ x [] (body x)); cbn [th_code at_phase]; try reflexivity; [apply Bodies|constructor| |].
        * intro m. split; [intro Q; destruct (N m Q)|intros []].
        * intros a _. cbn [at_log at_used th_log th_used]. rewrite Lg, U. apply alone_ext. intro d. rewrite mix_out by (intros []). reflexivity.
      }
  destruct k as [r|m k|m k|X c w f k|o k|h k].
  - (* the call ends *)
    injection S as <- <-. destruct Lk as [E P Lg U N|c H k E P W D I G|r' H k E P W D I Rr Ss]; [congruence| |].
    + injection (eq_trans (eq_sym Ek) E) as <-. cbn [wl] in W. subst H.
      specialize (G (am_cells A) (fun _ _ => eq_refl)). cbn [alone] in G.
      destruct (alone supply t (body c) (am_cells A) (at_log ath) (at_used ath)) as [[[s lg] us] rr] eqn:Ea. destruct G as [G1 G2]. unfold st, rest_of in G1, G2. cbn [fst snd] in G1, G2.
      injection G2 as -> -> ->. exists [t; t]. eexists. split.
      * cbn [arun]. unfold astep at 1. rewrite Hath, P, Ea. unfold astep. cbn [am_threads]. unfold put_athread at 1. rewrite nth_put, Nat.eqb_refl by exact Ht'. cbn [at_phase app]. reflexivity.
      * eapply (related_put M A); try exact R; try exact Ht; cbn [mc_owner mc_cells mc_threads am_cells am_threads]; try reflexivity; try tauto.
        -- unfold put_athread. apply put_put, Ht'.
        -- intros d u Hd Hu. split; [reflexivity|]. rewrite G1. apply mix_out. intros [].
        -- intros d Hd. rewrite G1, mix_out by (intros []). apply C, Hd.
        -- apply lk_idle; cbn [th_code at_phase th_log at_log th_used at_used]; try reflexivity. intros m Hm. apply I in Hm. destruct Hm.
        -- cbn. rewrite Rs. reflexivity.
    + injection (eq_trans (eq_sym Ek) E) as <-. cbn [wl] in W. subst H. cbn [alone rest_of st fst snd] in Rr. injection Rr as R1 R2 R3. subst r'.
      exists [t]. eexists. split.
      * cbn [arun]. unfold astep. rewrite Hath, P. rewrite app_nil_r. reflexivity.
      * eapply (related_put M A); try exact R; try exact Ht; cbn [mc_owner mc_cells mc_threads am_cells am_threads]; try reflexivity; try tauto; try exact C.
        -- apply lk_idle; cbn [th_code at_phase th_log at_log th_used at_used]; try reflexivity; try assumption. intros m Hm. apply I in Hm. destruct Hm.
        -- cbn. rewrite Rs. reflexivity.
  - (* Acquire *)
    destruct (mc_owner M m) as [u|] eqn:Om; [discriminate|]. injection S as <- <-.
    destruct Lk as [E|c H k' E P W D I G|r' H k' E P W D I Rr Ss]; [congruence| |].
    + injection (eq_trans (eq_sym Ek) E) as <-. cbn [wl] in W. destruct W as (_ & Lt & W). assert (Nm : ~ In m H) by (intro Q; apply Lt in Q; lia).
      exists [], A. split; [reflexivity|].
      assert (Ow : forall u d, put_owner (mc_owner M) m (Some t) d = Some u <-> (m = d /\ u = t) \/ (m <> d /\ mc_owner M d = Some u)).
      { intros u d. unfold put_owner. destruct (N.eqb_spec m d) as [<-|Hd].
        - split; [intro Q; injection Q as <-; left; auto|]. intros [[_ ->]|[Q _]]; [reflexivity|contradiction].
        - split; [intro Q; right; auto|]. intros [[Q _]|[_ Q]]; [contradiction|exact Q]. }
      eapply (related_put M A _ A t _ ath); try exact R; try exact Ht; cbn [mc_owner mc_cells mc_threads]; try reflexivity.
      * apply put_self, Hath.
      * intros u d Hu. rewrite Ow. split; [intros [[_ Q]|[_ Q]]; [contradiction|exact Q]|]. intro Q. right. split; [|exact Q]. intros <-. congruence.
      * tauto.
      * intros d Hd. apply C. unfold put_owner in Hd. destruct (N.eqb m (guard d)); [discriminate|exact Hd].
      * apply (lk_grow _ _ _ _ _ c (m :: H) k); cbn [th_code mc_owner mc_cells th_log th_used]; try reflexivity; try assumption.
        -- constructor; assumption.
        -- intro d. rewrite Ow. split; [intros [[<- _]|[_ Q]]; [left; reflexivity|right; apply I, Q]|].
           intros [<-|Q]; [left; auto|]. right. split; [intros <-; contradiction|apply I, Q].
        -- intros a Ha. eapply same_trans; [apply G; intros d Hd; apply Ha; right; exact Hd|]. cbn [alone]. apply alone_ext. intro d. unfold mix.
           destruct (in_dec N.eq_dec (guard d) H) as [Q|Q]; destruct (in_dec N.eq_dec (guard d) (m :: H)) as [Q'|Q']; try reflexivity.
           ++ destruct Q'. right. exact Q.
           ++ destruct Q' as [Q'|Q']; [|contradiction]. rewrite (Ha d); [|left; exact Q']. symmetry. apply C. rewrite <- Q'. exact Om.
      * exact Rs.
    + injection (eq_trans (eq_sym Ek) E) as <-. cbn [wl] in W. destruct W as [W _]. discriminate W.
  - (* Release *)
    injection S as <- <-.
    assert (Ow : forall u d, put_owner (mc_owner M) m None d = Some u <-> (m <> d /\ mc_owner M d = Some u)).
    { intros u d. unfold put_owner. destruct (N.eqb_spec m d) as [<-|Hd]; [split; [discriminate|intros [Q _]; contradiction]|tauto]. }
    assert (Oo : forall H, (forall d, mc_owner M d = Some t <-> In d H) -> forall d, put_owner (mc_owner M) m None d = Some t <-> In d (remove N.eq_dec m H)).
    { intros H I d. rewrite Ow. split.
      - intros [Q1 Q2]. apply in_in_remove; [congruence|apply I, Q2].
      - intro Q. apply (in_remove N.eq_dec) in Q. split; [intros <-; tauto|apply I; tauto]. }
    assert (Nr : forall H : list N, NoDup H -> NoDup (remove N.eq_dec m H)).
    { intros H. induction H as [|y H IH]; intro D; [constructor|]. apply NoDup_cons_iff in D. destruct D as [D1 D2]. cbn. destruct (N.eq_dec m y); [apply IH, D2|].
      constructor; [|apply IH, D2]. intro Q. apply (in_remove N.eq_dec) in Q. tauto. }
    destruct Lk as [E|c H k' E P W D I G|r' H k' E P W D I Rr Ss]; [congruence| |].
    + injection (eq_trans (eq_sym Ek) E) as <-. cbn [wl] in W. destruct W as [Hm W].
      specialize (G (am_cells A) (fun _ _ => eq_refl)). cbn [alone] in G.
      destruct (alone supply t (body c) (am_cells A) (at_log ath) (at_used ath)) as [[[s lg] us] rr] eqn:Ea. destruct G as [G1 G2].
      destruct (alone_agree t k (remove N.eq_dec m H) (mix H (mc_cells M) (am_cells A)) (mc_cells M) (th_log th) (th_used th) W) as (X1 & X2 & X3).
      { intros d Hd. apply mix_in. apply (in_remove N.eq_dec) in Hd. tauto. }
      unfold st at 1 in G1. unfold rest_of at 1 in G2. cbn [fst snd] in G1, G2.
      exists [t]. eexists. split.
      * cbn [arun]. unfold astep. rewrite Hath, P, Ea. reflexivity.
      * eapply (related_put M A); try exact R; try exact Ht; cbn [mc_owner mc_cells mc_threads am_cells am_threads]; try reflexivity; try assumption.
        -- intros u d Hu. rewrite Ow. split; [tauto|]. intro Q. split; [|exact Q]. intros <-. apply I in Hm. congruence.
        -- intros d u Hd Hu. split; [reflexivity|]. rewrite G1. assert (Q : ~ In (guard d) H) by (intro Q; apply I in Q; congruence).
           rewrite X3; [apply mix_out, Q|]. intro Q'. apply (in_remove N.eq_dec) in Q'. tauto.
        -- intros d Hd. rewrite G1. unfold put_owner in Hd. destruct (N.eqb_spec m (guard d)) as [Q|Q].
           ++ rewrite X3; [symmetry; apply mix_in; rewrite <- Q; exact Hm|]. rewrite <- Q. apply remove_In.
           ++ assert (Q' : ~ In (guard d) H) by (intro Q'; apply I in Q'; congruence). rewrite X3; [rewrite mix_out by exact Q'; apply C, Hd|].
              intro Q2. apply (in_remove N.eq_dec) in Q2. tauto.
        -- apply (lk_shrink _ _ _ _ _ rr (remove N.eq_dec m H) k); cbn [th_code at_phase mc_owner mc_cells am_cells th_log th_used at_log at_used]; try reflexivity; try assumption.
           ++ apply Nr, D.
           ++ apply Oo, I.
           ++ rewrite <- X1, <- G2. reflexivity.
           ++ intros d Hd. rewrite <- (X2 d Hd). symmetry. apply G1.
    + injection (eq_trans (eq_sym Ek) E) as <-. cbn [wl] in W. destruct W as [Hm W]. cbn [alone] in Rr, Ss.
      destruct (alone_agree t k (remove N.eq_dec m H) (mc_cells M) (mc_cells M) (th_log th) (th_used th) W (fun _ _ => eq_refl)) as (_ & _ & X3).
      exists [], A. split; [reflexivity|].
      eapply (related_put M A _ A t _ ath); try exact R; try exact Ht; cbn [mc_owner mc_cells mc_threads]; try reflexivity.
      * apply put_self, Hath.
      * intros u d Hu. rewrite Ow. split; [tauto|]. intro Q. split; [|exact Q]. intros <-. apply I in Hm. congruence.
      * tauto.
      * intros d Hd. unfold put_owner in Hd. destruct (N.eqb_spec m (guard d)) as [Q|Q]; [|apply C, Hd].
        rewrite <- Ss by (rewrite <- Q; exact Hm). symmetry. apply X3. rewrite <- Q. apply remove_In.
      * apply (lk_shrink _ _ _ _ _ r' (remove N.eq_dec m H) k); cbn [th_code at_phase mc_owner mc_cells th_log th_used]; try reflexivity; try assumption.
        -- apply Nr, D.
        -- apply Oo, I.
        -- intros d Hd. apply Ss. apply (in_remove N.eq_dec) in Hd. tauto.
      * exact Rs.
  - (* Access *)
    destruct (f (mc_cells M c)) as [x v] eqn:Ef. injection S as <- <-. exists [], A. split; [reflexivity|].
    assert (Hc : mc_owner M (guard c) = Some t).
    { destruct Lk as [E|? H k' E P W D I G|? H k' E P W D I Rr Ss]; [congruence| |]; injection (eq_trans (eq_sym Ek) E) as <-; cbn [wl] in W; apply I, W. }
    assert (Ke : forall d, guard d <> guard c -> (if w then put_cell (mc_cells M) c x else mc_cells M) d = mc_cells M d).
    { intros d Hd. destruct w; [|reflexivity]. apply put_other. congruence. }
    eapply (related_put M A _ A t _ ath); try exact R; try exact Ht; cbn [mc_owner mc_cells mc_threads]; try reflexivity; try tauto.
    * apply put_self, Hath.
    * intros d u Hd Hu. split; [apply Ke; congruence|reflexivity].
    * intros d Hd. rewrite Ke by congruence. apply C, Hd.
    * destruct Lk as [E|c' H k' E P W D I G|r' H k' E P W D I Rr Ss]; [congruence| |]; injection (eq_trans (eq_sym Ek) E) as <-; cbn [wl] in W; destruct W as [Wc W].
      -- apply (lk_grow _ _ _ _ _ c' H (k v)); cbn [th_code mc_owner mc_cells th_log th_used]; try reflexivity; try assumption; [apply W|].
         intros a Ha. eapply same_trans; [apply G, Ha|]. cbn [alone]. rewrite mix_in by exact Wc. rewrite Ef. apply alone_ext. intro d. unfold mix. destruct w; [|reflexivity].
         unfold put_cell. destruct (N.eqb_spec c d) as [<-|Q]; [|reflexivity]. destruct (in_dec _ _ _); [reflexivity|contradiction].
      -- cbn [alone] in Rr, Ss. rewrite Ef in Rr, Ss. apply (lk_shrink _ _ _ _ _ r' H (k v)); cbn [th_code mc_owner mc_cells th_log th_used]; try reflexivity; try assumption. apply W.
  - (* Make *)
    injection S as <- <-. exists [], A. split; [reflexivity|].
    eapply (related_put M A _ A t _ ath); try exact R; try exact Ht; cbn [mc_owner mc_cells mc_threads]; try reflexivity; try tauto; try exact C.
    * apply put_self, Hath.
    * destruct Lk as [E|c' H k' E P W D I G|r' H k' E P W D I Rr Ss]; [congruence| |]; injection (eq_trans (eq_sym Ek) E) as <-; cbn [wl] in W.
      -- apply (lk_grow _ _ _ _ _ c' H (k (supply t (th_used th)))); cbn [th_code mc_owner mc_cells th_log th_used]; try reflexivity; try assumption. apply W.
      -- apply (lk_shrink _ _ _ _ _ r' H (k (supply t (th_used th)))); cbn [th_code mc_owner mc_cells th_log th_used]; try reflexivity; try assumption. apply W.
  - (* Free *)
    injection S as <- <-. exists [], A. split; [reflexivity|].
    eapply (related_put M A _ A t _ ath); try exact R; try exact Ht; cbn [mc_owner mc_cells mc_threads]; try reflexivity; try tauto; try exact C.
    * apply put_self, Hath.
    * destruct Lk as [E|c' H k' E P W D I G|r' H k' E P W D I Rr Ss]; [congruence| |]; injection (eq_trans (eq_sym Ek) E) as <-; cbn [wl] in W.
      -- apply (lk_grow _ _ _ _ _ c' H k); cbn [th_code mc_owner mc_cells th_log th_used]; try reflexivity; assumption.
      -- apply (lk_shrink _ _ _ _ _ r' H k); cbn [th_code mc_owner mc_cells th_log th_used]; try reflexivity; assumption.
Qed.
End Locks.
