(* Lifetimes of the objects of the pipeline holders. *)
From Verif Require Export Spec_Pipe Proof_Layout Proof_Record Proof_Run3 Proof_Passes.
From Coq Require Import Lia ZifyBool ZifyNat ZifyN Permutation PeanoNat.
Local Open Scope N_scope.

Notation cnt := (count_occ N.eq_dec).

Lemma alive_app k l1 l2 l : alive_from k l (l1 ++ l2) = match alive_from k l l1 with Some l' => alive_from k l' l2 | None => None end.
Proof. revert l; induction l1 as [|e r IH]; intro l; cbn; [reflexivity|]. destruct (alive_step k l e); [apply IH|reflexivity]. Qed.
Lemma kind_eqb_spec a b : kind_eqb a b = true <-> a = b.
Proof. split; [destruct a, b; (reflexivity || discriminate)|intros ->; destruct b; reflexivity]. Qed.
Lemma kind_eqb_refl a : kind_eqb a a = true. Proof. destruct a; reflexivity. Qed.

(* What a holder owns. *)
Definition owned (k : kind) (h : pholder) : list N :=
  match k with KPipeline => ho_pipelines h | KPool => [ho_pool h] | KSetLayout => [ho_setLayout h] | KLayout => [ho_layout h] end.
Definition queued (k : kind) (d : driver) (x : N) : nat := match k with KPipeline => cnt (dr_queue d) x | _ => 0%nat end.
Definition rel (b : bool) (m n : nat) : Prop := if b then m = n else (m <= n)%nat.

(* The invariant: [r] counts what the other passes own. *)
Definition inv (b : bool) (k : kind) (d : driver) (r : N -> nat) : Prop :=
  (0 < dr_next d /\ ~ In 0 (dr_queue d)) /\
  exists l, alive_after k (dr_log d) = Some l /\ NoDup l /\ (forall x, In x l -> 0 < x < dr_next d) /\
    forall x, x <> 0 -> rel b (queued k d x + r x) (cnt l x).
Definition plus (f g : N -> nat) : N -> nat := fun x => (f x + g x)%nat.
Definition own (k : kind) (h : pholder) : N -> nat := cnt (owned k h).

Lemma inv_ext b k d r r' : (forall x, x <> 0 -> r x = r' x) -> inv b k d r -> inv b k d r'.
Proof.
  intros E (H0 & l & H1 & H2 & H3 & H4). split; [exact H0|]. exists l. repeat split; auto; try (apply (H3 x); assumption).
  intros x Hx. rewrite <- (E x Hx). apply H4; exact Hx.
Qed.
Lemma inv_le k d (r r' : N -> nat) : (forall x, x <> 0 -> (r' x <= r x)%nat) -> inv false k d r -> inv false k d r'.
Proof.
  intros E (H0 & l & H1 & H2 & H3 & H4). split; [exact H0|]. exists l. repeat split; auto; try (apply (H3 x); assumption).
  intros x Hx. specialize (H4 x Hx). specialize (E x Hx). unfold rel in *. lia.
Qed.

Definition neutral (k : kind) (e : pevent) : bool :=
  match e with PCreated k' _ | PDestroyed k' _ => negb (kind_eqb k k') | _ => true end.
Lemma alive_neutral k es l : forallb (neutral k) es = true -> alive_from k l es = Some l.
Proof.
  revert l; induction es as [|e r IH]; intros l H; cbn; [reflexivity|]. cbn in H. apply andb_prop in H. destruct H as [He Hr].
  replace (alive_step k l e) with (Some l); [apply IH; exact Hr|].
  destruct e; cbn in *; try reflexivity; destruct (kind_eqb k k0); (discriminate || reflexivity).
Qed.

Lemma existsb_count h l : existsb (N.eqb h) l = true <-> In h l.
Proof. rewrite existsb_exists. split; [intros (x & H1 & H2); apply N.eqb_eq in H2; subst; exact H1|intro H; exists h; split; [exact H|apply N.eqb_refl]]. Qed.
Lemma not_in_existsb h l : ~ In h l -> existsb (N.eqb h) l = false.
Proof. intro H. destruct (existsb (N.eqb h) l) eqn:E; [|reflexivity]. apply existsb_count in E. contradiction. Qed.

(* neutral calls *)
Lemma inv_log b k d r es : forallb (neutral k) es = true -> inv b k d r -> inv b k (log d es) r.
Proof.
  intros Hn (H0 & l & H1 & H2 & H3 & H4). split; [exact H0|]. exists l. split.
  - unfold alive_after, log. cbn [dr_log]. rewrite alive_app. unfold alive_after in H1. rewrite H1. apply alive_neutral. exact Hn.
  - auto.
Qed.
Lemma inv_fresh_neutral b k d r e : (forall n, forallb (neutral k) (e n) = true) -> inv b k d r ->
  inv b k (fst (fresh d e)) r.
Proof.
  intros Hn ((H0 & Hq) & l & H1 & H2 & H3 & H4). unfold fresh; cbn [fst]. split; [cbn; split; [lia|tauto]|]. exists l. split.
  - unfold alive_after. cbn [dr_log]. rewrite alive_app. unfold alive_after in H1. rewrite H1. apply alive_neutral, Hn.
  - split; [exact H2|]. split; [|exact H4]. intros x Hx. cbn. specialize (H3 x Hx). lia.
Qed.
(* creation of one object *)
Lemma inv_fresh_create b k d r e : (forall n, forallb (neutral k) (e n) = true) -> inv b k d r ->
  let '(d', n) := fresh d (fun n => PCreated k n :: e n) in
  n <> 0 /\ inv b k d' (plus r (cnt [n])) /\ (b = false -> inv b k d' r).
Proof.
  intros Hn ((H0 & Hq) & l & H1 & H2 & H3 & H4). unfold fresh.
  set (d' := {| dr_next := dr_next d + 1; dr_log := dr_log d ++ PCreated k (dr_next d) :: e (dr_next d); dr_queue := dr_queue d |}).
  assert (N0 : ~ In (dr_next d) l) by (intro X; specialize (H3 _ X); lia).
  assert (A : alive_after k (dr_log d') = Some (dr_next d :: l)).
  { unfold alive_after. cbn [dr_log d']. rewrite alive_app. unfold alive_after in H1. rewrite H1. cbn. rewrite kind_eqb_refl.
    rewrite (not_in_existsb _ _ N0). apply alive_neutral, Hn. }
  assert (B : forall x, In x (dr_next d :: l) -> 0 < x < dr_next d').
  { cbn. intros x [<-|Hx]; [lia|]. specialize (H3 x Hx). lia. }
  split; [lia|]. split.
  - split; [cbn; split; [lia|tauto]|]. exists (dr_next d :: l). split; [exact A|]. split; [constructor; assumption|]. split; [exact B|].
    intros x Hx. specialize (H4 x Hx). unfold plus. cbn [count_occ].
    replace (queued k d' x) with (queued k d x) by reflexivity. destruct (N.eq_dec (dr_next d) x); destruct b; cbn in *; lia.
  - intros ->. split; [cbn; split; [lia|tauto]|]. exists (dr_next d :: l). split; [exact A|]. split; [constructor; assumption|]. split; [exact B|].
    intros x Hx. specialize (H4 x Hx). cbn [count_occ].
    replace (queued k d' x) with (queued k d x) by reflexivity. destruct (N.eq_dec (dr_next d) x); cbn in *; lia.
Qed.

Lemma remove_count l h x : NoDup l -> (cnt (remove N.eq_dec h l) x = if N.eq_dec h x then 0 else cnt l x)%nat.
Proof.
  intros Hn. destruct (N.eq_dec h x) as [->|Ne].
  - apply count_occ_not_In. apply remove_In.
  - induction l as [|y r IH]; [reflexivity|]. inversion_clear Hn. cbn.
    destruct (N.eq_dec h y) as [->|]; cbn.
    + destruct (N.eq_dec y x); [contradiction|]. apply IH; assumption.
    + destruct (N.eq_dec y x); rewrite IH; auto.
Qed.
Lemma remove_NoDup (l : list N) h : NoDup l -> NoDup (remove N.eq_dec h l).
Proof.
  induction 1 as [|y r Hn Hr IH]; cbn; [constructor|]. destruct (N.eq_dec h y); [exact IH|]. constructor; [|exact IH].
  intro X. apply in_remove in X. tauto.
Qed.

(* destruction of owned objects, one after the other *)
Lemma inv_destroy b k : forall hs d r,
  inv b k d (plus (cnt hs) r) -> inv b k (log d (flat_map (destroy_event k) hs)) r.
Proof.
  intros hs. induction hs as [|h hs IH]; intros d r H.
  - cbn. destruct d as [a lg q]. unfold log; cbn. rewrite app_nil_r. revert H. apply inv_ext. intros x Hx; reflexivity.
  - cbn [flat_map]. unfold destroy_event at 1. destruct (N.eqb_spec h 0) as [E|E].
    + cbn [app]. apply IH. revert H. apply inv_ext. intros x Hx. unfold plus. cbn. destruct (N.eq_dec h x); [congruence|reflexivity].
    + destruct H as (H0 & l & H1 & H2 & H3 & H4).
      assert (Hin : In h l).
      { specialize (H4 h E). unfold plus in H4. cbn [count_occ] in H4. destruct (N.eq_dec h h); [|contradiction].
        apply (count_occ_In N.eq_dec). destruct b; cbn in H4; lia. }
      replace (log d ([PDestroyed k h] ++ flat_map (destroy_event k) hs)) with (log (log d [PDestroyed k h]) (flat_map (destroy_event k) hs)).
      2:{ unfold log; cbn. rewrite <- app_assoc. reflexivity. }
      apply IH. split; [exact H0|]. exists (remove N.eq_dec h l). split.
      { unfold alive_after, log. cbn [dr_log]. rewrite alive_app. unfold alive_after in H1. rewrite H1. cbn. rewrite kind_eqb_refl.
        apply existsb_count in Hin. rewrite Hin. reflexivity. }
      split; [apply remove_NoDup; exact H2|]. split. { intros x Hx. apply in_remove in Hx. cbn. apply H3. tauto. }
      intros x Hx. rewrite (remove_count l h x H2). specialize (H4 x Hx). unfold plus in *. cbn [count_occ] in H4.
      replace (queued k (log d [PDestroyed k h]) x) with (queued k d x) by reflexivity.
      destruct (N.eq_dec h x) as [->|Ne]; [|exact H4].
      assert (cnt l x <= 1)%nat by (apply (proj1 (NoDup_count_occ N.eq_dec l) H2)).
      destruct b; cbn in *; lia.
Qed.

(* counts and set_nth *)
Lemma set_nth_length {A} i (x : A) l : length (set_nth i x l) = length l.
Proof. revert i; induction l as [|y r IH]; intros [|i]; cbn; auto. Qed.
Lemma set_nth_count i x l y : (i < length l)%nat -> (cnt (set_nth i x l) y + cnt [nth i l 0%N] y = cnt l y + cnt [x] y)%nat.
Proof.
  revert i; induction l as [|z r IH]; intros i H; [cbn in H; lia|]. destruct i as [|i].
  - cbn. destruct (N.eq_dec x y), (N.eq_dec z y); lia.
  - cbn [set_nth nth]. cbn [count_occ]. specialize (IH i ltac:(cbn in H; lia)). cbn [count_occ] in IH. destruct (N.eq_dec z y); lia.
Qed.
Lemma set_nth_out {A} i (x : A) l : (length l <= i)%nat -> set_nth i x l = l.
Proof. revert i; induction l as [|z r IH]; intros i H; [destruct i; reflexivity|]. destruct i; [cbn in H; lia|]. cbn. f_equal. apply IH. cbn in H; lia. Qed.
Lemma nth_set_nth {A} i j (x d : A) l : nth j (set_nth i x l) d = if andb (Nat.eqb i j) (Nat.ltb i (length l)) then x else nth j l d.
Proof.
  revert i j; induction l as [|z r IH]; intros i j; [cbn; rewrite andb_false_r; destruct i, j; reflexivity|].
  destruct i, j; cbn [set_nth nth]; try reflexivity. rewrite IH. cbn [length]. reflexivity.
Qed.

(* the operations of a holder *)
Lemma inv_create b k d h r nf index :
  (b = true -> k = KPipeline -> ho_pipeline h index = 0 /\ (slot_of h index < length (ho_pipelines h))%nat) ->
  inv b k d (plus (own k h) r) ->
  let '(d', h') := ho_create nf index d h in inv b k d' (plus (own k h') r).
Proof.
  intros Hb H. unfold ho_create.
  destruct (kind_eqb k KPipeline) eqn:Ek.
  - apply kind_eqb_spec in Ek. subst k.
    pose proof (inv_fresh_create b KPipeline d _ (fun n => [PPipeline n (fst nf) (snd nf) (ho_layout h)]) (fun _ => eq_refl) H) as F.
    destruct (fresh d (fun n => [PCreated KPipeline n; PPipeline n (fst nf) (snd nf) (ho_layout h)])) as [d' n] eqn:E.
    replace (fresh d (fun n => PCreated KPipeline n :: [PPipeline n (fst nf) (snd nf) (ho_layout h)])) with (d', n) in F by (symmetry; exact E). destruct F as (F0 & F1 & F2).
    destruct b.
    + destruct (Hb eq_refl eq_refl) as [S1 S2]. revert F1. apply inv_ext. intros x Hx. unfold plus, own. cbn [owned with_pipelines ho_pipelines].
      pose proof (set_nth_count (slot_of h index) n (ho_pipelines h) x S2) as C. unfold ho_pipeline in S1. rewrite S1 in C.
      cbn [count_occ] in *. destruct (N.eq_dec 0 x); [congruence|]. lia.
    + revert F1. apply inv_le. intros x Hx. unfold plus, own. cbn [owned with_pipelines ho_pipelines].
      destruct (Nat.lt_ge_cases (slot_of h index) (length (ho_pipelines h))) as [L|L].
      * pose proof (set_nth_count (slot_of h index) n (ho_pipelines h) x L) as C. lia.
      * rewrite set_nth_out by exact L. lia.
  - assert (F : inv b k (fst (fresh d (fun n => [PCreated KPipeline n; PPipeline n (fst nf) (snd nf) (ho_layout h)]))) (plus (own k h) r)).
    { apply inv_fresh_neutral; [|exact H]. intro n. cbn. rewrite Ek. reflexivity. }
    destruct (fresh d (fun n => [PCreated KPipeline n; PPipeline n (fst nf) (snd nf) (ho_layout h)])) as [d' n]. cbn [fst] in F.
    revert F. apply inv_ext. intros x Hx. destruct k; try discriminate; reflexivity.
Qed.

Lemma inv_reset b k d h r index : inv b k d (plus (own k h) r) ->
  let '(d', h') := ho_reset index d h in inv b k d' (plus (own k h') r).
Proof.
  intros H. unfold ho_reset. destruct (N.eqb_spec (ho_pipeline h index) 0) as [E|E]; [exact H|].
  destruct H as ((H0 & Hq) & l & H1 & H2 & H3 & H4). split.
  { split; [exact H0|]. cbn. intro X. apply in_app_or in X. destruct X as [X|[X|[]]]; [contradiction|congruence]. }
  exists l. split; [exact H1|]. split; [exact H2|]. split; [exact H3|].
  intros x Hx. specialize (H4 x Hx). destruct k; try exact H4.
  unfold plus, own in *. cbn [owned with_pipelines ho_pipelines queued push dr_queue] in *.
  assert (L : (slot_of h index < length (ho_pipelines h))%nat).
  { destruct (Nat.lt_ge_cases (slot_of h index) (length (ho_pipelines h))); [assumption|]. exfalso. apply E. unfold ho_pipeline. apply nth_overflow. assumption. }
  pose proof (set_nth_count (slot_of h index) 0 (ho_pipelines h) x L) as C. fold (ho_pipeline h index) in C.
  rewrite count_occ_app. cbn [count_occ] in *. destruct (N.eq_dec 0 x); [congruence|].
  destruct (N.eq_dec (ho_pipeline h index) x); destruct b; cbn [rel] in *; lia.
Qed.

Lemma destroy_neutral k k' l : k <> k' -> forallb (neutral k) (flat_map (destroy_event k') l) = true.
Proof.
  intro H. induction l as [|x l IH]; [reflexivity|]. cbn [flat_map]. rewrite forallb_app, IH, andb_true_r.
  unfold destroy_event. destruct (N.eqb x 0); [reflexivity|]. cbn. destruct (kind_eqb k k') eqn:E; [apply kind_eqb_spec in E; contradiction|reflexivity].
Qed.
Lemma destroy_one k x : destroy_event k x = flat_map (destroy_event k) [x].
Proof. cbn. rewrite app_nil_r. reflexivity. Qed.
Lemma log_log d a b : log (log d a) b = log d (a ++ b).
Proof. unfold log; cbn. rewrite app_assoc. reflexivity. Qed.

Lemma inv_destroys b k : forall (l : list (kind * list N)) d r,
  inv b k d (plus (fun x => fold_right (fun e s => ((if kind_eqb k (fst e) then cnt (snd e) x else 0) + s)%nat) 0%nat l) r) ->
  inv b k (log d (flat_map (fun e => flat_map (destroy_event (fst e)) (snd e)) l)) r.
Proof.
  intros l. induction l as [|[k' hs] l IH]; intros d r H; cbn [flat_map fold_right fst snd] in *.
  - unfold log. destruct d; cbn. rewrite app_nil_r. revert H. apply inv_ext. reflexivity.
  - rewrite <- log_log. apply IH. destruct (kind_eqb k k') eqn:E.
    + apply kind_eqb_spec in E. subst k'. apply inv_destroy. revert H. apply inv_ext. intros x Hx. unfold plus. lia.
    + apply inv_log; [apply destroy_neutral; intro; subst; rewrite kind_eqb_refl in E; discriminate|].
      revert H. apply inv_ext. intros x Hx. unfold plus. lia.
Qed.

Lemma count_zeros {A} (l : list A) x : x <> 0 -> cnt (map (fun _ => 0) l) x = 0%nat.
Proof. intro H. induction l; cbn [map count_occ]; [reflexivity|]. destruct (N.eq_dec 0 x); [congruence|assumption]. Qed.

Lemma inv_cleanup b k d h r : inv b k d (plus (own k h) r) ->
  let '(d', h') := ho_cleanup d h in inv b k d' (plus (own k h') r) /\ inv b k d' r.
Proof.
  intro H. unfold ho_cleanup.
  assert (F : inv b k (log d (destroy_event KPool (ho_pool h) ++ flat_map (destroy_event KPipeline) (ho_pipelines h)
          ++ destroy_event KLayout (ho_layout h) ++ destroy_event KSetLayout (ho_setLayout h))) r).
  { pose proof (inv_destroys b k [(KPool, [ho_pool h]); (KPipeline, ho_pipelines h); (KLayout, [ho_layout h]); (KSetLayout, [ho_setLayout h])] d r) as L.
    cbn [flat_map fst snd fold_right] in L. rewrite !app_nil_r in L. rewrite <- ?app_assoc in L. apply L.
    revert H. apply inv_ext. intros x Hx. unfold plus, own. destruct k; cbn [owned kind_eqb]; lia. }
  split; [|exact F]. revert F. apply inv_ext. intros x Hx. unfold plus, own. destruct k; cbn [owned ho_pipelines ho_pool ho_setLayout ho_layout].
  1: rewrite count_zeros by exact Hx; reflexivity.
  all: cbn [count_occ]; destruct (N.eq_dec 0 x); [congruence|reflexivity].
Qed.

(* a holder without pipeline layout has no pool nor set layout *)
Definition holder_ok (h : pholder) : Prop := ho_layout h = 0 -> ho_pool h = 0 /\ ho_setLayout h = 0.

Lemma inv_initialise b k images buffers d h r : holder_ok h -> inv b k d (plus (own k h) r) ->
  let '(d', h') := ho_initialise images buffers d h in inv b k d' (plus (own k h') r) /\ holder_ok h'.
Proof.
  intros Ho H. unfold ho_initialise. destruct (N.eqb_spec (ho_layout h) 0) as [E|E]; [|split; [exact H|exact Ho]].
  destruct (Ho E) as [Ep Es].
  assert (C : forall k1 d1 r1 e, (forall n, forallb (neutral k) (e n) = true) -> inv b k d1 r1 ->
     let '(d2, n) := fresh d1 (fun n => PCreated k1 n :: e n) in n <> 0 /\ inv b k d2 (plus r1 (fun x => if kind_eqb k k1 then cnt [n] x else 0%nat))).
  { intros k1 d1 r1 e He I. destruct (kind_eqb k k1) eqn:Ek.
    - apply kind_eqb_spec in Ek. subst k1. pose proof (inv_fresh_create b k d1 r1 e He I) as F. destruct (fresh d1 _) as [d2 n]. destruct F as (F0 & F1 & _). split; [exact F0|].
      revert F1. apply inv_ext. reflexivity.
    - assert (F : inv b k (fst (fresh d1 (fun n => PCreated k1 n :: e n))) r1).
      { apply inv_fresh_neutral; [|exact I]. intro n. cbn. rewrite Ek. apply He. }
      destruct I as ((I0 & _) & _). unfold fresh in *. cbn [fst] in F. split; [lia|]. revert F. apply inv_ext. intros. unfold plus. lia. }
  pose proof (C KSetLayout d _ (fun n => [PSetLayout n (fill_bindings images buffers)]) ltac:(intros; reflexivity) H) as C1.
  destruct (fresh d _) as [d1 sl]. destruct C1 as [N1 I1].
  pose proof (C KLayout d1 _ (fun n => []) ltac:(intros; reflexivity) I1) as C2.
  destruct (fresh d1 _) as [d2 pl]. destruct C2 as [N2 I2].
  pose proof (C KPool d2 _ (fun n => [PPool n (u32 (N.of_nat (length (ho_sets h)))) (getBindingsSizes (fill_bindings images buffers) (u32 (N.of_nat (length (ho_sets h)))))])
                ltac:(intros; reflexivity) I2) as C3.
  destruct (fresh d2 _) as [d3 po]. destruct C3 as [N3 I3].
  split; [|intro X; cbn in X; contradiction].
  revert I3. apply inv_ext. intros x Hx. unfold plus, own.
  destruct k; cbn [owned kind_eqb ho_pipelines ho_pool ho_setLayout ho_layout]; rewrite ?E, ?Ep, ?Es; try lia.
  all: replace (cnt [0] x) with 0%nat by (cbn [count_occ]; destruct (N.eq_dec 0 x); [congruence|reflexivity]); lia.
Qed.

Lemma inv_set b k images buffers index d h r : inv b k d (plus (own k h) r) ->
  let '(d', h') := ho_set images buffers index d h in inv b k d' (plus (own k h') r).
Proof.
  intro H. unfold ho_set. destruct (N.eqb _ 0); [|exact H].
  assert (F : inv b k (fst (fresh d (fun n => [PAllocated (ho_pool h) (ho_setLayout h) n; PUpdated n (set_writes images buffers index)]))) (plus (own k h) r)).
  { apply inv_fresh_neutral; [reflexivity|exact H]. }
  destruct (fresh d _) as [d' s]. cbn [fst] in F. revert F. apply inv_ext. intros x Hx. destruct k; reflexivity.
Qed.

Lemma inv_clear b k d r : inv b k d r -> inv b k (clear_queue d) r.
Proof.
  intro H. assert (Q : forall l, ~ In 0 l -> flat_map (destroy_event KPipeline) l = map (PDestroyed KPipeline) l).
  { induction l as [|x q IH]; [reflexivity|]. intro Hn. cbn. unfold destroy_event at 1. destruct (N.eqb_spec x 0); [exfalso; apply Hn; left; assumption|].
    cbn. rewrite IH; [reflexivity|]. intro X. apply Hn. right. exact X. }
  destruct H as ((H0 & Hq) & l & H1 & H2 & H3 & H4).
  set (d0 := {| dr_next := dr_next d; dr_log := dr_log d; dr_queue := [] |}).
  replace (clear_queue d) with (log d0 (flat_map (destroy_event KPipeline) (dr_queue d))) by (rewrite Q by exact Hq; reflexivity).
  destruct (kind_eqb k KPipeline) eqn:E.
  - apply kind_eqb_spec in E. subst k. apply inv_destroy.
    split; [split; [exact H0|intros []]|]. exists l. split; [exact H1|]. split; [exact H2|]. split; [exact H3|]. exact H4.
  - apply inv_log; [apply destroy_neutral; intros ->; discriminate|].
    split; [split; [exact H0|intros []]|]. exists l. split; [exact H1|]. split; [exact H2|]. split; [exact H3|].
    intros x Hx. specialize (H4 x Hx). destruct k; try discriminate; exact H4.
Qed.
