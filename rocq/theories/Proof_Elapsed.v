(* Which measure the time of a pass comes from. *)
From Verif Require Import Spec_Elapsed Proof_Timer.
From Coq Require Import Lia ZifyBool ZifyNat ZifyN.
Local Open Scope N_scope.

(* The unread measures of the two pairs of queries, that of the last recording first. *)
Definition pairs := (option N * option N)%type.
Definition pair_step (x : pairs) (n : N) (o : gop) : pairs :=
  let '(a, b) := x in
  match o with
  | GRec true => (b, a)
  | GRec false | GRunOp false _ => (a, b)
  | GRunOp true true => (Some n, a)
  | GRunOp true false => (match b with Some _ => Some n | None => None end, a)
  | GRetrieve => (None, b)
  end.
Definition holds_measure (p : qpool) (q : query) (x : option N) : Prop :=
  (q_started q = true -> q_written q = true) /\
  (if q_started q then exists m, x = Some m /\ p (q_offset q) = Some m /\ p (q_offset q + 1) = Some m else x = None).
Definition keeps (base : N) (s : moment) (x : pairs) : Prop :=
  let '(t, p, _) := s in offsets_ok base t /\ holds_measure p (t_front t) (fst x) /\ holds_measure p (t_back t) (snd x).

Lemma keeps_shown base s x : keeps base s x -> shown_now s = fst x.
Proof.
  destruct s as [[t p] n]. intros (Ho & (Hw & Hf) & _). unfold shown_now, retrieve. destruct (q_started (t_front t)) eqn:E; cbn [andb].
  - rewrite (Hw eq_refl). destruct Hf as (m & -> & A & _). exact A.
  - symmetry. exact Hf.
Qed.
Lemma keeps_step base s x o : base + 3 < 2 ^ 32 -> keeps base s x -> consistent o ->
  exists s', gop_step s o = Some s' /\ keeps base s' (pair_step x (snd s) o) /\ snd s' = snd s + recordings [o].
Proof.
  intros Hb Hi Hc. destruct s as [[t p] n]. destruct x as [a b]. destruct Hi as (Ho & (Hwf & Hf) & (Hwb & Hk)). cbn [fst snd] in *. destruct o as [en|r no|]; cbn [gop_step].
  - eexists; split; [reflexivity|]. destruct en; simpl.
    + split; [|lia]. split; [|split].
      * unfold offsets_ok in *. simpl. intuition.
      * split; simpl; [auto|exact Hk].
      * split; [exact Hwf|exact Hf].
    + split; [|lia]. exact (conj Ho (conj (conj Hwf Hf) (conj Hwb Hk))).
  - destruct r.
    + simpl. eexists; split; [reflexivity|].
      assert (B : q_offset (t_back t) + 1 < 2 ^ 32) by (destruct Ho as [[? R]|[? R]]; rewrite R; lia).
      destruct (exec_measure n p (q_offset (t_back t)) B) as (E1 & E2 & E3).
      assert (D : q_offset (t_front t) + 1 < q_offset (t_back t) \/ q_offset (t_back t) + 2 <= q_offset (t_front t)).
      { destruct Ho as [[R1 R2]|[R1 R2]]; rewrite R1, R2; lia. }
      set (p' := q_exec_all n p [QReset (q_offset (t_back t)) 2; QWrite (u32 (q_offset (t_back t) + 0)); QWrite (u32 (q_offset (t_back t) + 1))]) in *.
      assert (K : holds_measure p' (t_front t) a).
      { split; [exact Hwf|]. destruct (q_started (t_front t)); [|exact Hf]. destruct Hf as (m & -> & A & B'). exists m. rewrite !E3 by lia. auto. }
      split; [|simpl; lia]. split; [|split].
      * unfold offsets_ok in *. destruct no; simpl; intuition.
      * destruct no; simpl; split; simpl; try (intros; reflexivity); [exists n; auto|]. destruct (q_started (t_back t)); [|rewrite Hk; reflexivity].
        destruct Hk as (m & -> & _). exists n. auto.
      * destruct no; exact K.
    + destruct no; [specialize (Hc eq_refl); discriminate|]. simpl. eexists; split; [reflexivity|]. split; [|cbn [snd recordings]; lia]. exact (conj Ho (conj (conj Hwf Hf) (conj Hwb Hk))).
  - unfold retrieve. destruct (q_started (t_front t)) eqn:E; cbn [andb].
    + rewrite (Hwf eq_refl). destruct Hf as (m & -> & A & B). cbn [t_front q_offset]. rewrite A, B, N.eqb_refl.
      eexists; split; [reflexivity|]. split; [|simpl; lia]. split; [|split].
      * unfold offsets_ok in *. simpl. exact Ho.
      * split; simpl; [discriminate|reflexivity].
      * split; assumption.
    + eexists; split; [reflexivity|]. split; [|simpl; lia]. split; [exact Ho|]. split; [|split; assumption]. split; [rewrite E; discriminate|]. rewrite E. reflexivity.
Qed.
Lemma keeps_fresh base : base + 3 < 2 ^ 32 -> keeps base (fresh_moment base) (None, None).
Proof.
  intro Hb. split; [|split].
  - left. simpl. split; [reflexivity|]. apply u32_small. lia.
  - split; [discriminate|reflexivity].
  - split; [discriminate|reflexivity].
Qed.
Lemma recordings_app l1 l2 : recordings (l1 ++ l2) = recordings l1 + recordings l2.
Proof. induction l1 as [|[]]; cbn [app recordings]; lia. Qed.
Lemma recordings_cons o l : recordings (o :: l) = recordings [o] + recordings l.
Proof. apply (recordings_app [o] l). Qed.
Lemma keeps_all base l : base + 3 < 2 ^ 32 -> forall s x, keeps base s x -> steady l ->
  exists s' x', gops s l = Some s' /\ keeps base s' x' /\ snd s' = snd s + recordings l.
Proof.
  intro Hb. induction l as [|o l IH]; intros s x K H; [exists s, x; split; [reflexivity|]; split; [exact K|]; cbn; lia|].
  destruct (keeps_step base s x o Hb K) as (s1 & E1 & K1 & N1).
  { destruct o as [|r n|]; simpl; auto. intro E. exact (H r n (or_introl eq_refl) E). }
  destruct (IH s1 _ K1) as (s2 & x2 & E2 & K2 & N2); [intros r n Hin; apply H; right; exact Hin|].
  exists s2, x2. cbn [gops]. rewrite E1. split; [exact E2|]. split; [exact K2|]. rewrite N2, N1, (recordings_cons o l). lia.
Qed.
Lemma gops_app s l1 l2 : gops s (l1 ++ l2) = match gops s l1 with Some s' => gops s' l2 | None => None end.
Proof. revert s. induction l1 as [|o l1 IH]; intro s; [reflexivity|]. cbn [app gops]. destruct (gop_step s o); [apply IH|reflexivity]. Qed.
Lemma shown_app s l1 l2 : shown s (l1 ++ l2) = shown s l1 ++ match gops s l1 with Some s' => shown s' l2 | None => [] end.
Proof.
  revert s. induction l1 as [|o l1 IH]; intro s; [reflexivity|]. cbn [app shown gops]. destruct (gop_step s o) as [s'|]; [|rewrite !app_nil_r; reflexivity].
  rewrite IH, app_assoc. reflexivity.
Qed.
Lemma steady_app l1 l2 : steady (l1 ++ l2) -> steady l1 /\ steady l2.
Proof. intro H. split; intros r n Hin; apply H, in_or_app; auto. Qed.
Lemma disabled_steady l : (forall o, In o l -> disabled_op o) -> steady l.
Proof. intros H r n Hin E. subst n. destruct (H _ Hin) as [X|X]; discriminate X. Qed.
Lemma keeps_disabled base l : base + 3 < 2 ^ 32 -> (forall o, In o l -> disabled_op o) -> forall s x, keeps base s x ->
  exists s', gops s l = Some s' /\ keeps base s' x.
Proof.
  intros Hb. induction l as [|o l IH]; intros Hl s x K; [exists s; auto|].
  destruct (keeps_step base s x o Hb K) as (s1 & E1 & K1 & _).
  { destruct (Hl o (or_introl eq_refl)) as [-> | ->]; simpl; auto. }
  assert (Ex : pair_step x (snd s) o = x) by (destruct x; destruct (Hl o (or_introl eq_refl)) as [-> | ->]; reflexivity). rewrite Ex in K1.
  destruct (IH (fun o H => Hl o (or_intror H)) s1 x K1) as (s2 & E2 & K2). exists s2. cbn [gops]. rewrite E1. auto.
Qed.

(* ---- the measures shown ---- *)
Definition newer (x : pairs) (n : N) : Prop := (forall m, fst x = Some m -> m < n) /\ (forall m, snd x = Some m -> m < n) /\ (forall m, fst x = Some m -> snd x = Some m -> False).
Lemma newer_step x n o : newer x n -> newer (pair_step x n o) (n + recordings [o]).
Proof.
  destruct x as [a b]. intros (A & B & C). cbn [fst snd] in *.
  assert (A' : match a with Some m => m < n | None => True end) by (destruct a; [apply A; reflexivity|exact I]).
  assert (B' : match b with Some m => m < n | None => True end) by (destruct b; [apply B; reflexivity|exact I]).
  assert (C' : match a, b with Some m, Some m' => m <> m' | _, _ => True end).
  { destruct a as [a|], b as [b|]; try exact I. intros ->. apply (C b); reflexivity. }
  clear A B C. destruct o as [[]|[] []|]; cbn [pair_step recordings]; unfold newer; cbn [fst snd]; rewrite ?N.add_0_r;
    destruct a as [a|], b as [b|]; repeat split; intros;
    repeat match goal with E : Some _ = Some _ |- _ => injection E as E; subst | E : None = Some _ |- _ => discriminate E end; lia.
Qed.
(* what is shown from now on is unread now or measured later *)
Lemma shown_in base l : base + 3 < 2 ^ 32 -> forall s x, keeps base s x -> newer x (snd s) -> steady l ->
  NoDup (shown s l) /\ forall m, In m (shown s l) -> fst x = Some m \/ snd x = Some m \/ snd s <= m.
Proof.
  intro Hb. induction l as [|o l IH]; intros s x K W H; [split; [constructor|intros m []]|].
  destruct (keeps_step base s x o Hb K) as (s1 & E1 & K1 & N1).
  { destruct o as [|r n|]; simpl; auto. intro E. exact (H r n (or_introl eq_refl) E). }
  pose proof (newer_step x (snd s) o W) as W1. rewrite <- N1 in W1.
  destruct (IH s1 _ K1 W1) as [D1 I1]; [intros r n Hin; apply H; right; exact Hin|].
  cbn [shown]. rewrite E1. pose proof (keeps_shown base s x K) as Sh. destruct W as (A & B & C). destruct x as [a b]. cbn [fst snd] in *.
  assert (Old : forall m, In m (shown s1 l) -> o <> GRetrieve -> a = Some m \/ b = Some m \/ snd s <= m).
  { intros m Hm Ho. destruct (I1 m Hm) as [X|[X|X]]; [| |right; right; destruct o; cbn [recordings] in N1; lia].
    - destruct o as [[]|[] []|]; cbn [pair_step fst snd] in X; auto; try congruence; [injection X as <-; right; right; lia|destruct b; [injection X as <-; right; right; lia|discriminate]].
    - destruct o as [[]|[] []|]; cbn [pair_step fst snd] in X; auto. }
  destruct o; cbn [app]; try (split; [exact D1|intros m Hm; apply Old; [exact Hm|discriminate]]).
  rewrite Sh. cbn [pair_step fst snd] in I1. cbn [recordings] in N1. destruct a as [a|]; cbn [app].
  - split.
    + constructor; [|exact D1]. intro Hin. destruct (I1 a Hin) as [X|[X|X]]; [discriminate|apply (C a eq_refl X)|]. specialize (A a eq_refl). lia.
    + intros m [<-|Hm]; [auto|]. destruct (I1 m Hm) as [X|[X|X]]; [discriminate|auto|right; right; lia].
  - split; [exact D1|]. intros m Hm. destruct (I1 m Hm) as [X|[X|X]]; [discriminate|auto|right; right; lia].
Qed.

(* without recordings out of a run, in order *)
Definition only_runs (l : list gop) : Prop := ~ In (GRec true) l.
Definition notified_runs (l : list gop) : Prop := forall r n, In (GRunOp r n) l -> n = r.
Lemma shown_sorted base l : base + 3 < 2 ^ 32 -> forall s x, keeps base s x -> newer x (snd s) -> (forall o, In o l -> o <> GRec true) -> notified_runs l ->
  (forall m, In m (shown s l) -> fst x = Some m \/ snd s <= m) /\
  (forall i j mi mj, (i < j)%nat -> nth_error (shown s l) i = Some mi -> nth_error (shown s l) j = Some mj -> mi < mj).
Proof.
  intro Hb. induction l as [|o l IH]; intros s x K W H Hn; [split; [intros m []|intros [] ? ? ? ? E; discriminate E]|].
  destruct (keeps_step base s x o Hb K) as (s1 & E1 & K1 & N1).
  { destruct o as [|r n|]; simpl; auto. intro E. rewrite <- E. symmetry. apply Hn. left. reflexivity. }
  pose proof (newer_step x (snd s) o W) as W1. rewrite <- N1 in W1.
  destruct (IH s1 _ K1 W1) as [I1 S1]; [intros; apply H; right; assumption|intros r n Hin; apply Hn; right; exact Hin|].
  cbn [shown]. rewrite E1. pose proof (keeps_shown base s x K) as Sh. destruct W as (A & B & C). destruct x as [a b]. cbn [fst snd] in *.
  destruct o as [[]|r no|].
  - exfalso. apply (H (GRec true)); [left; reflexivity|reflexivity].
  - cbn [app]. split; [|exact S1]. intros m Hm. cbn [pair_step recordings fst snd] in *. destruct (I1 m Hm) as [X|X]; [auto|right; lia].
  - cbn [app]. split; [|exact S1]. intros m Hm. assert (no = r) as -> by (apply Hn; left; reflexivity). destruct r; cbn [pair_step recordings fst snd] in *.
    + destruct (I1 m Hm) as [X|X]; [injection X as <-; right; lia|right; lia].
    + destruct (I1 m Hm) as [X|X]; [auto|right; lia].
  - cbn [pair_step recordings fst snd] in *. rewrite Sh. destruct a as [a|]; cbn [app].
    + split.
      * intros m [<-|Hm]; [auto|]. destruct (I1 m Hm) as [X|X]; [discriminate|right; lia].
      * intros [|i] [|j] mi mj Hij E2 E3; try lia; cbn [nth_error] in *.
        { injection E2 as <-. apply nth_error_In in E3. destruct (I1 mj E3) as [X|X]; [discriminate|]. specialize (A a eq_refl). lia. }
        { apply (S1 i j); [lia|assumption|assumption]. }
    + split; [|exact S1]. intros m Hm. destruct (I1 m Hm) as [X|X]; [discriminate|right; lia].
Qed.
