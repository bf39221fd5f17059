(* The log of the runnable graphs: effect of each elementary step on what lives, what is executed and what is registered. *)
From Verif Require Import Spec_Life Proof_Layout Proof_Run3.
From Coq Require Import List Permutation.
Import ListNotations.
Local Open Scope N_scope.

Lemma app_mid {A} (before : list A) e after log x : log ++ [x] = before ++ e :: after ->
  (after = [] /\ e = x /\ before = log) \/ (exists after', after = after' ++ [x] /\ log = before ++ e :: after').
Proof.
  destruct (@exists_last A (e :: after) ltac:(discriminate)) as (l & y & E). rewrite E, app_assoc. intros H.
  apply app_inj_tail in H as [H <-]. destruct l as [|z l]; cbn in E; injection E as -> ->.
  - left. rewrite app_nil_r in H. auto.
  - right. exists l. auto.
Qed.
Lemma well_used_nil : well_used [].
Proof. intros [|? ?] ? ? H; discriminate. Qed.
Lemma well_used_snoc log x : well_used log -> permitted log x -> well_used (log ++ [x]).
Proof. intros W P before e after H. destruct (app_mid _ _ _ _ _ H) as [(-> & -> & ->)|(a & -> & ->)]; [exact P|]. exact (W before e a eq_refl). Qed.

Lemma living_snoc log x : living_things (log ++ [x]) = living_step (living_things log) x.
Proof. unfold living_things. now rewrite fold_left_app. Qed.
Lemma executing_snoc log x : executing (log ++ [x]) = executing_step (executing log) x.
Proof. unfold executing. now rewrite fold_left_app. Qed.
Lemma listed_snoc log x : listed (log ++ [x]) = fold_left reg_step (registration x) (listed log).
Proof. unfold listed, registry. rewrite flat_map_app, fold_left_app. cbn. now rewrite app_nil_r. Qed.

(* The state after a log: what lives ([L], in any order), what is executed, and whether the registry lists exactly what lives. *)
Record St (strict : bool) (log : list levent) (L : list thing) (P : list (N * N * N)) : Prop := {
  st_living : Permutation (living_things log) L;
  st_nodup : NoDup (map th_handle L);
  st_nonzero : forall x, In x L -> th_handle x <> 0;
  st_executing : executing log = P;
  st_used : well_used log;
  st_listed : forall x, In x L -> mfind (th_handle x) (listed log) = Some (type_name (th_kind x), th_name x);
  st_only : forall h v, mfind h (listed log) = Some v -> In h (map th_handle L) \/ (strict = false /\ fst v = type_name LBuffer);
  st_sorted : keys_sorted (listed log);
  st_pending : forall b s f, In (b, s, f) P -> In b (map th_handle L) /\ In s (map th_handle L) /\ In f (map th_handle L) }.

Lemma St_perm strict log L L' P : Permutation L L' -> St strict log L P -> St strict log L' P.
Proof.
  intros E [A B C D U F G K Q]. split; auto.
  - now rewrite A.
  - apply Permutation_map with (f := th_handle) in E. exact (Permutation_NoDup E B).
  - intros x H. apply C. now rewrite E.
  - intros x H. apply F. now rewrite E.
  - intros h v H. destruct (G h v H) as [I|I]; [left|right; exact I]. apply Permutation_map with (f := th_handle) in E. now rewrite <- E.
  - apply Permutation_map with (f := th_handle) in E. intros b s f H. rewrite <- E. exact (Q b s f H).
Qed.
Lemma St_weak strict log L P : St strict log L P -> St false log L P.
Proof. intros [A B C D U F G K Q]. split; auto. intros h v H. destruct (G h v H) as [I|[_ I]]; auto. Qed.
Lemma St_start : St true [] [] [].
Proof. split; cbn; auto; try constructor; try easy. exact well_used_nil. Qed.

Lemma kind_eqb_eq a b : kind_eqb a b = true <-> a = b.
Proof. destruct a, b; cbn; split; congruence. Qed.
Lemma is_thing_eq k h x : is_thing k h x = true <-> th_kind x = k /\ th_handle x = h.
Proof. unfold is_thing. rewrite Bool.andb_true_iff, kind_eqb_eq, N.eqb_eq. reflexivity. Qed.

Lemma lives_in strict log L P k h p n : St strict log L P -> In {| th_kind := k; th_handle := h; th_parent := p; th_name := n |} L -> lives log k h.
Proof. intros S I. exists p, n. rewrite (st_living _ _ _ _ S). exact I. Qed.

(* An object that no submission uses. *)
Definition unused (P : list (N * N * N)) (h : N) : Prop := forall b s f, In (b, s, f) P -> b <> h /\ s <> h /\ f <> h.
Lemma unused_not log h k strict L P : St strict log L P -> unused P h -> k <> LCommandPool -> ~ in_use log k h.
Proof.
  intros S U K (b & s & f & I & E). rewrite (st_executing _ _ _ _ S) in I. destruct (U b s f I) as (A & B & C).
  destruct k; try (now apply A); try (now apply B); try (now apply C); try (now apply K); exact E.
Qed.

(* ---- events that change nothing but are uses of something ---- *)
Definition neutral (e : levent) : Prop := match e with LRefused _ | LResetFence _ | LResetBuffer _ | LBegun _ | LEnded _ => True | _ => False end.
Lemma St_neutral strict log L P e : neutral e -> permitted log e -> St strict log L P -> St strict (log ++ [e]) L P.
Proof.
  intros Ne Pe [A B C D U F G K Q]. split; auto.
  - rewrite living_snoc. destruct e; cbn in Ne; try contradiction; exact A.
  - rewrite executing_snoc, D. destruct e; cbn in Ne; try contradiction; reflexivity.
  - exact (well_used_snoc log e U Pe).
  - intros x H. rewrite listed_snoc. destruct e; cbn in Ne; try contradiction; exact (F x H).
  - intros h v. rewrite listed_snoc. destruct e; cbn in Ne; try contradiction; exact (G h v).
  - rewrite listed_snoc. destruct e; cbn in Ne; try contradiction; exact K.
Qed.

(* ---- creation ---- *)
Lemma St_created strict log L P k h p n : h <> 0 -> ~ In h (map th_handle (living_things log)) ->
  (k = LBuffer -> lives log LCommandPool p) -> St strict log L P ->
  St strict (log ++ [LCreated k h p n; LRegistered k h n]) ({| th_kind := k; th_handle := h; th_parent := p; th_name := n |} :: L) P.
Proof.
  intros Z Fr Po [A B C D U F G K Q].
  replace (log ++ [LCreated k h p n; LRegistered k h n]) with ((log ++ [LCreated k h p n]) ++ [LRegistered k h n]) by now rewrite <- app_assoc.
  assert (Fr' : ~ In h (map th_handle L)). { apply Permutation_map with (f := th_handle) in A. now rewrite <- A. }
  split.
  - rewrite living_snoc, living_snoc. cbn. rewrite A. symmetry. apply Permutation_cons_append.
  - cbn. constructor; assumption.
  - intros x [<-|H]; [exact Z|exact (C x H)].
  - rewrite executing_snoc, executing_snoc. exact D.
  - apply well_used_snoc; [apply well_used_snoc; [exact U|]|exact Logic.I]. split; [exact Fr|exact Po].
  - intros x H. rewrite listed_snoc, listed_snoc. cbn [registration fold_left reg_step]. rewrite mfind_mput by exact K. destruct H as [<-|H]; cbn [th_handle th_kind th_name].
    + now rewrite N.eqb_refl.
    + destruct (N.eqb_spec (th_handle x) h) as [E|E]; [|exact (F x H)]. exfalso. apply Fr'. rewrite <- E. apply in_map. exact H.
  - intros h' v. rewrite listed_snoc, listed_snoc. cbn [registration fold_left reg_step]. rewrite mfind_mput by exact K. cbn [map th_handle In].
    destruct (N.eqb_spec h' h) as [E|E]; [intros _; left; left; now symmetry|]. intros H. destruct (G h' v H) as [I|I]; auto.
  - rewrite listed_snoc, listed_snoc. cbn [registration fold_left reg_step]. apply mput_sorted. exact K.
  - intros b s f H. destruct (Q b s f H) as (X & Y & W). cbn. auto.
Qed.

(* ---- destruction ---- *)
Lemma filter_permutation {A} (f : A -> bool) l l' : Permutation l l' -> Permutation (filter f l) (filter f l').
Proof.
  induction 1 as [|x l l' _ IH|x y l|a b c _ IH1 _ IH2]; cbn; auto.
  - destruct (f x); auto.
  - destruct (f x), (f y); auto. apply perm_swap.
  - now rewrite IH1.
Qed.
Lemma filter_all {A} (f : A -> bool) l : (forall x, In x l -> f x = true) -> filter f l = l.
Proof. induction l as [|x l IH]; cbn; intros H; [reflexivity|]. rewrite (H x (or_introl eq_refl)). f_equal. apply IH. intros y I. apply H. now right. Qed.
Lemma filter_none {A} (f : A -> bool) l : (forall x, In x l -> f x = false) -> filter f l = [].
Proof. induction l as [|x l IH]; cbn; intros H; [reflexivity|]. rewrite (H x (or_introl eq_refl)). apply IH. intros y I. apply H. now right. Qed.
Lemma filter_cut {A} (f : A -> bool) gone L : (forall x, In x gone -> f x = false) -> (forall x, In x L -> f x = true) -> filter f (gone ++ L) = L.
Proof. intros G K. rewrite filter_app, (filter_none f gone G), (filter_all f L K). reflexivity. Qed.

Lemma nodup_app_r {A} (a b : list A) : NoDup (a ++ b) -> NoDup b.
Proof. induction a as [|x a IH]; cbn; intros H; [exact H|]. apply NoDup_cons_iff in H as [_ H]. exact (IH H). Qed.
Lemma unregister_state h (m : nmap (string * string)) : h <> 0 -> fold_left reg_step [Unregister h] m = merase h m.
Proof. intros Z. cbn. destruct (N.eqb_spec h 0); [contradiction|reflexivity]. Qed.
Lemma living_unregister log h : living_things (log ++ [LUnregistered h]) = living_things log.
Proof. now rewrite living_snoc. Qed.
Lemma lives_unregister log h k q : lives (log ++ [LUnregistered h]) k q <-> lives log k q.
Proof. unfold lives. rewrite living_unregister. reflexivity. Qed.
Lemma in_use_unregister log h k q : in_use (log ++ [LUnregistered h]) k q <-> in_use log k q.
Proof. unfold in_use. rewrite living_unregister, executing_snoc. reflexivity. Qed.

Lemma St_removed strict' strict log x more L P e f :
  St strict log (x :: more ++ L) P ->
  (forall l, living_step l e = filter f l) -> (forall l, executing_step l e = l) -> registration e = [] ->
  f x = false -> (forall y, In y more -> f y = false) -> (forall y, In y L -> f y = true) ->
  (more = [] /\ strict' = strict \/ strict' = false /\ forall y, In y more -> th_kind y = LBuffer) ->
  permitted (log ++ [LUnregistered (th_handle x)]) e ->
  (forall y, In y (x :: more) -> unused P (th_handle y)) ->
  St strict' (log ++ [LUnregistered (th_handle x); e]) L P.
Proof.
  intros [A B C D U F G K Q] Le Ex Re Fx Fm FL Ss Pe Un.
  replace (log ++ [LUnregistered (th_handle x); e]) with ((log ++ [LUnregistered (th_handle x)]) ++ [e]) by now rewrite <- app_assoc.
  assert (Z : th_handle x <> 0) by (apply C; now left).
  assert (Li : listed ((log ++ [LUnregistered (th_handle x)]) ++ [e]) = merase (th_handle x) (listed log)).
  { rewrite listed_snoc, Re. cbn [fold_left]. rewrite listed_snoc. apply unregister_state. exact Z. }
  assert (NL : NoDup (map th_handle L)). { cbn in B. apply NoDup_cons_iff in B as [_ B]. rewrite map_app in B. exact (nodup_app_r _ _ B). }
  assert (Nx : ~ In (th_handle x) (map th_handle L)). { cbn in B. apply NoDup_cons_iff in B as [B _]. intros I. apply B. rewrite map_app. apply in_or_app. now right. }
  split.
  - rewrite living_snoc, living_snoc. cbn [living_step]. rewrite Le. apply filter_permutation with (f := f) in A. rewrite A.
    cbn. rewrite Fx, (filter_cut f more L Fm FL). reflexivity.
  - exact NL.
  - intros y H. apply C. right. apply in_or_app. now right.
  - rewrite executing_snoc, executing_snoc, Ex. exact D.
  - apply well_used_snoc; [apply well_used_snoc; [exact U|exact Logic.I]|exact Pe].
  - intros y H. rewrite Li, merase_find. destruct (N.eqb_spec (th_handle y) (th_handle x)) as [E|E].
    + exfalso. apply Nx. rewrite <- E. apply in_map. exact H.
    + apply F. right. apply in_or_app. now right.
  - intros h v. rewrite Li, merase_find. destruct (N.eqb_spec h (th_handle x)) as [E|E]; [discriminate|]. intros H.
    destruct (G h v H) as [I|(S1 & I)].
    + cbn [map In] in I. destruct I as [I|I]; [congruence|]. rewrite map_app in I. apply in_app_or in I as [I|I]; [|now left].
      destruct Ss as [[-> _]|[S2 Km]]; [contradiction|]. right. split; [exact S2|].
      apply in_map_iff in I as (y & <- & Iy). rewrite <- (Km y Iy). rewrite (F y) in H; [|right; apply in_or_app; now left]. injection H as <-. reflexivity.
    + right. split; [|exact I]. destruct Ss as [[_ ->]|[-> _]]; auto.
  - rewrite Li. apply merase_sorted. exact K.
  - assert (Cut : forall h, In h (map th_handle (x :: more ++ L)) -> (forall y, In y (x :: more) -> th_handle y <> h) -> In h (map th_handle L)).
    { intros h I N. cbn in I. destruct I as [I|I]; [exfalso; exact (N x (or_introl eq_refl) I)|]. rewrite map_app in I. apply in_app_or in I as [I|I]; [|exact I].
      apply in_map_iff in I as (y & E & I). exfalso. exact (N y (or_intror I) E). }
    intros b s f' H. destruct (Q b s f' H) as (X & Y & W). split; [|split]; (apply Cut; [assumption|]); intros y I; destruct (Un y I b s f' H) as (? & ? & ?); congruence.
Qed.

Lemma same_handle (L : list thing) x y : NoDup (map th_handle L) -> In x L -> In y L -> th_handle x = th_handle y -> x = y.
Proof.
  induction L as [|z L IH]; cbn; intros N X Y E; [contradiction|]. apply NoDup_cons_iff in N as [N1 N2].
  destruct X as [->|X], Y as [->|Y]; auto.
  - exfalso. apply N1. rewrite E. apply in_map. exact Y.
  - exfalso. apply N1. rewrite <- E. apply in_map. exact X.
Qed.

Definition orphan (L : list thing) (pool : N) : Prop := forall y, In y L -> th_kind y = LBuffer -> th_parent y <> pool.

Lemma St_destroyed strict log k h p n L P : k <> LCommandPool ->
  St strict log ({| th_kind := k; th_handle := h; th_parent := p; th_name := n |} :: L) P -> unused P h ->
  St strict (ldestroy k h log) L P.
Proof.
  intros Kp S U. unfold ldestroy. pose proof (st_nonzero _ _ _ _ S _ (or_introl eq_refl)) as Z. cbn in Z.
  destruct (N.eqb_spec h 0); [contradiction|]. set (x := {| th_kind := k; th_handle := h; th_parent := p; th_name := n |}) in *.
  change (LUnregistered h) with (LUnregistered (th_handle x)).
  eapply St_removed with (more := []) (f := fun x => negb (is_thing k h x)); [exact S|..]; auto.
  - intros l. cbn. destruct (kind_eqb k LCommandPool) eqn:E; [apply kind_eqb_eq in E; contradiction|]. apply filter_ext. intros a. cbn. now rewrite Bool.orb_false_r.
  - assert (E : is_thing k h x = true) by now apply is_thing_eq. now rewrite E.
  - intros y [].
  - intros y I. destruct (is_thing k h y) eqn:E; [|reflexivity]. apply is_thing_eq in E as [_ E]. exfalso.
    pose proof (st_nodup _ _ _ _ S) as ND. cbn in ND. apply NoDup_cons_iff in ND as [ND _]. apply ND. rewrite <- E. apply in_map. exact I.
  - cbn. rewrite lives_unregister, in_use_unregister. split; [exact (lives_in _ _ _ _ _ _ _ _ S (or_introl eq_refl))|exact (unused_not _ _ _ _ _ _ S U Kp)].
  - intros y [<-|[]]. exact U.
Qed.
Lemma St_freed strict log pool h n np pp L P : 
  St strict log ({| th_kind := LBuffer; th_handle := h; th_parent := pool; th_name := n |} :: L) P -> unused P h ->
  In {| th_kind := LCommandPool; th_handle := pool; th_parent := pp; th_name := np |} L ->
  St strict (lfree pool h log) L P.
Proof.
  intros S U Po. unfold lfree. pose proof (st_nonzero _ _ _ _ S _ (or_introl eq_refl)) as Z. cbn in Z.
  destruct (N.eqb_spec h 0); [contradiction|]. set (x := {| th_kind := LBuffer; th_handle := h; th_parent := pool; th_name := n |}) in *.
  change (LUnregistered h) with (LUnregistered (th_handle x)).
  eapply St_removed with (more := []) (f := fun x => negb (is_thing LBuffer h x)); [exact S|..]; auto.
  - assert (E : is_thing LBuffer h x = true) by now apply is_thing_eq. now rewrite E.
  - intros y [].
  - intros y I. destruct (is_thing LBuffer h y) eqn:E; [|reflexivity]. apply is_thing_eq in E as [_ E]. exfalso.
    pose proof (st_nodup _ _ _ _ S) as ND. cbn in ND. apply NoDup_cons_iff in ND as [ND _]. apply ND. rewrite <- E. apply in_map. exact I.
  - cbn. rewrite lives_unregister, in_use_unregister, living_unregister. split; [|split].
    + exists n. rewrite (st_living _ _ _ _ S). now left.
    + exact (lives_in _ _ _ _ _ _ _ _ S (or_intror Po)).
    + apply (unused_not _ _ _ _ _ _ S U). discriminate.
  - intros y [<-|[]]. exact U.
Qed.
(* A command pool: with the command buffers it still has. *)
Lemma St_pool strict' strict log h p n more L P :
  St strict log ({| th_kind := LCommandPool; th_handle := h; th_parent := p; th_name := n |} :: more ++ L) P -> 
  (forall y, In y more -> th_kind y = LBuffer /\ th_parent y = h /\ unused P (th_handle y)) -> orphan L h -> unused P h ->
  (more = [] /\ strict' = strict \/ strict' = false) ->
  St strict' (ldestroy LCommandPool h log) L P.
Proof.
  intros S M O Uh Ss. unfold ldestroy. pose proof (st_nonzero _ _ _ _ S _ (or_introl eq_refl)) as Z. cbn in Z.
  destruct (N.eqb_spec h 0); [contradiction|]. set (x := {| th_kind := LCommandPool; th_handle := h; th_parent := p; th_name := n |}) in *.
  change (LUnregistered h) with (LUnregistered (th_handle x)).
  eapply St_removed with (more := more) (f := fun y => negb (orb (is_thing LCommandPool h y) (andb (kind_eqb (th_kind y) LBuffer) (N.eqb (th_parent y) h)))); [exact S|intros l; reflexivity|..]; auto; cbv beta.
  - assert (E : is_thing LCommandPool h x = true) by now apply is_thing_eq. now rewrite E.
  - intros y I. destruct (M y I) as (Ky & Py & _). rewrite Ky, Py, N.eqb_refl. cbn. now rewrite Bool.orb_true_r.
  - intros y I. destruct (is_thing LCommandPool h y) eqn:E.
    + apply is_thing_eq in E as [_ E]. exfalso. pose proof (st_nodup _ _ _ _ S) as ND. cbn in ND. apply NoDup_cons_iff in ND as [ND _]. apply ND. rewrite <- E. apply in_map. apply in_or_app. now right.
    + cbn. destruct (kind_eqb (th_kind y) LBuffer) eqn:Ek; [|reflexivity]. apply kind_eqb_eq in Ek. cbn.
      destruct (N.eqb_spec (th_parent y) h) as [E2|E2]; [|reflexivity]. exfalso. exact (O y I Ek E2).
  - destruct Ss as [Ss|Ss]; [now left|right]. split; [exact Ss|]. intros y I. now destruct (M y I).
  - cbn. rewrite lives_unregister, in_use_unregister. split; [exact (lives_in _ _ _ _ _ _ _ _ S (or_introl eq_refl))|].
    intros (b & s & f & I & nn & Il). rewrite (st_executing _ _ _ _ S) in I. rewrite (st_living _ _ _ _ S) in Il.
    destruct Il as [E|Il]; [discriminate E|]. apply in_app_or in Il as [Il|Il].
    + destruct (M _ Il) as (_ & _ & U). destruct (U b s f I) as [H _]. apply H. reflexivity.
    + exact (O _ Il eq_refl eq_refl).
  - intros y [<-|I]; [exact Uh|]. now destruct (M y I) as (_ & _ & ?).
Qed.

(* ---- waits and submissions ---- *)
Lemma St_waited strict log f p n L P : St strict log L P -> In {| th_kind := LFence; th_handle := f; th_parent := p; th_name := n |} L ->
  St strict (log ++ [LWaited f]) L (filter (fun x => negb (N.eqb (snd x) f)) P).
Proof.
  intros S I. pose proof (lives_in _ _ _ _ _ _ _ _ S I) as Lv. destruct S as [A B C D U F G K Q]. split; auto.
  - now rewrite living_snoc.
  - rewrite executing_snoc, D. reflexivity.
  - apply well_used_snoc; [exact U|exact Lv].
  - intros x H. rewrite listed_snoc. exact (F x H).
  - intros h v. rewrite listed_snoc. exact (G h v).
  - rewrite listed_snoc. exact K.
  - intros b s f' H. apply filter_In in H as [H _]. exact (Q b s f' H).
Qed.
Lemma lives_handle strict log L P k h : St strict log L P -> lives log k h -> In h (map th_handle L).
Proof. intros S (p & n & I). rewrite (st_living _ _ _ _ S) in I. apply in_map with (f := th_handle) in I. exact I. Qed.
Lemma St_submitted strict log b s f L P : St strict log L P -> lives log LBuffer b -> lives log LSemaphore s -> lives log LFence f ->
  unused P b -> unused P f -> St strict (log ++ [LSubmitted b s f]) L (P ++ [(b, s, f)]).
Proof.
  intros S Lb Ls Lf Ub Uf.
  assert (Pe : permitted log (LSubmitted b s f)). { cbn. repeat split; auto; apply (unused_not _ _ _ _ _ _ S); auto; discriminate. }
  pose proof (lives_handle _ _ _ _ _ _ S Lb) as Ib. pose proof (lives_handle _ _ _ _ _ _ S Ls) as Is. pose proof (lives_handle _ _ _ _ _ _ S Lf) as If.
  destruct S as [A B C D U F G K Q]. split; auto.
  - now rewrite living_snoc.
  - rewrite executing_snoc, D. reflexivity.
  - apply well_used_snoc; [exact U|exact Pe].
  - intros x H. rewrite listed_snoc. exact (F x H).
  - intros h v. rewrite listed_snoc. exact (G h v).
  - rewrite listed_snoc. exact K.
  - intros b' s' f' H. apply in_app_or in H as [H|[H|[]]]; [exact (Q b' s' f' H)|]. injection H as <- <- <-. auto.
Qed.
