From Verif Require Import Spec_Run Proof_Layout.
From Coq Require Import Sorted Lia PeanoNat.
Local Open Scope N_scope.

(* ================= convert ================= *)
Lemma first_position_app s l1 l2 : first_position s (l1 ++ l2) =
  match first_position s l1 with Some i => Some i | None => option_map (fun i => (length l1 + i)%nat) (first_position s l2) end.
Proof.
  induction l1 as [|[s' m] l1 IH]; simpl.
  - destruct (first_position s l2); reflexivity.
  - destruct (N.eqb s s'); [reflexivity|]. rewrite IH. destruct (first_position s l1); [reflexivity|].
    destruct (first_position s l2); reflexivity.
Qed.
Lemma first_mask_app s l1 l2 : first_mask s (l1 ++ l2) =
  match first_mask s l1 with Some i => Some i | None => first_mask s l2 end.
Proof.
  induction l1 as [|[s' m] l1 IH]; simpl; [reflexivity|]. destruct (N.eqb s s'); auto.
Qed.
Lemma first_position_lt s l i : first_position s l = Some i -> (i < length l)%nat.
Proof.
  revert i. induction l as [|[s' m] l IH]; simpl; intros i; [discriminate|].
  destruct (N.eqb s s'); [intros [= <-]; lia|]. destruct (first_position s l); simpl; [|discriminate].
  intros [= <-]. specialize (IH _ eq_refl). lia.
Qed.
Lemma first_position_in s l : (exists i, first_position s l = Some i) <-> exists m, In (s, m) l.
Proof.
  induction l as [|[s' m] l IH]; simpl.
  - split; [intros [i H]; discriminate|intros [m []]].
  - destruct (N.eqb_spec s s') as [<-|Hn].
    + split; [intros _; exists m; auto|intros _; exists O; reflexivity].
    + destruct (first_position s l) eqn:E; simpl.
      * split; [intros _|intros _; eexists; reflexivity]. destruct (proj1 IH) as [m' Hm]; [eexists; reflexivity|]. exists m'; auto.
      * split; [intros [i H]; discriminate|]. intros [m' [H|H]]; [congruence|].
        destruct (proj2 IH) as [i Hi]; [exists m'; exact H|discriminate].
Qed.

Record conv_inv (done : list (N * N)) (acc : list N * list N) : Prop := {
  ci_null : ~ In 0 (fst acc);
  ci_nodup : NoDup (fst acc);
  ci_len : length (fst acc) = length (snd acc);
  ci_mem : forall s, s <> 0 -> (In s (fst acc) <-> exists m, In (s, m) done);
  ci_mask : forall i s m, nth_error (fst acc) i = Some s -> nth_error (snd acc) i = Some m -> first_mask s done = Some m;
  ci_order : forall i j s t, (i < j)%nat -> nth_error (fst acc) i = Some s -> nth_error (fst acc) j = Some t ->
     exists a b, first_position s done = Some a /\ first_position t done = Some b /\ (a < b)%nat }.

Lemma nth_error_snoc {A} (l : list A) x i y : nth_error (l ++ [x]) i = Some y ->
  nth_error l i = Some y \/ (i = length l /\ y = x).
Proof.
  intro H. destruct (Nat.lt_ge_cases i (length l)) as [Hl|Hl].
  - left. rewrite nth_error_app1 in H; auto.
  - right. rewrite nth_error_app2 in H by exact Hl. destruct (i - length l)%nat as [|n] eqn:E; simpl in H.
    + injection H as <-. split; [lia|reflexivity].
    + destruct n; discriminate.
Qed.

Lemma conv_step done acc w : conv_inv done acc -> conv_inv (done ++ [w]) (convert_one acc w).
Proof.
  destruct acc as [ss ms], w as [s m]. intros [H0 H1 H2 H3 H4 H5]. simpl in *. unfold convert_one. simpl.
  destruct (N.eqb_spec s 0) as [->|Hs]; simpl.
  { constructor; simpl; auto.
    - intros t Ht. rewrite H3 by exact Ht. split; intros [m' Hm]; exists m'; [apply in_or_app; auto|].
      apply in_app_or in Hm. destruct Hm as [Hm|[Hm|[]]]; [exact Hm|congruence].
    - intros i t m' A B. rewrite first_mask_app, (H4 _ _ _ A B). reflexivity.
    - intros i j a b L A B. destruct (H5 _ _ _ _ L A B) as (x & y & X & Y & Z). exists x, y.
      rewrite !first_position_app, X, Y. auto. }
  destruct (existsb (N.eqb s) ss) eqn:Ex; simpl.
  { apply existsb_eqb_In in Ex. constructor; simpl; auto.
    - intros t Ht. rewrite H3 by exact Ht. split; intros [m' Hm].
      + exists m'. apply in_or_app; auto.
      + apply in_app_or in Hm. destruct Hm as [Hm|[Hm|[]]]; [exists m'; exact Hm|].
        injection Hm as -> ->. apply H3; auto.
    - intros i t m' A B. rewrite first_mask_app, (H4 _ _ _ A B). reflexivity.
    - intros i j a b L A B. destruct (H5 _ _ _ _ L A B) as (x & y & X & Y & Z). exists x, y.
      rewrite !first_position_app, X, Y. auto. }
  assert (Hni : ~ In s ss). { intro H. apply existsb_eqb_In in H. congruence. }
  assert (Hfp : first_position s done = None).
  { destruct (first_position s done) eqn:E; [|reflexivity]. exfalso. apply Hni. apply H3; [exact Hs|].
    apply first_position_in. eexists; exact E. }
  assert (Hfm : first_mask s done = None).
  { destruct (first_mask s done) eqn:E; [|reflexivity]. exfalso.
    assert (K : exists m, In (s, m) done); [|apply H3 in K; auto].
    clear -E. induction done as [|[s' m'] d IH]; simpl in *; [discriminate|].
    destruct (N.eqb_spec s s') as [<-|]; [exists m'; auto|]. destruct (IH E) as [x Hx]; exists x; auto. }
  constructor; simpl.
  - intro H. apply in_app_or in H. destruct H as [H|[H|[]]]; [auto|congruence].
  - apply NoDup_rev in H1. rewrite <- (rev_involutive (ss ++ [s])). apply NoDup_rev. rewrite rev_app_distr. simpl. constructor; [|exact H1].
    intro H. apply Hni. apply in_rev. exact H.
  - rewrite !app_length, H2. reflexivity.
  - intros t Ht. rewrite !in_app_iff, H3 by exact Ht. simpl. split.
    + intros [[m' Hm]|[<-|[]]]; [exists m'; apply in_or_app; auto|exists m; apply in_or_app; simpl; auto].
    + intros [m' Hm]. apply in_app_or in Hm. destruct Hm as [Hm|[Hm|[]]]; [left; exists m'; exact Hm|].
      injection Hm as -> ->. auto.
  - intros i t m' A B. rewrite first_mask_app. apply nth_error_snoc in A. apply nth_error_snoc in B.
    destruct A as [A|[A ->]], B as [B|[B ->]].
    + rewrite (H4 _ _ _ A B). reflexivity.
    + exfalso. apply nth_error_Some in A || (assert (nth_error ss i <> None) by congruence; apply nth_error_Some in H; lia).
    + exfalso. assert (K : nth_error ms i <> None) by congruence. apply nth_error_Some in K. lia.
    + rewrite Hfm. simpl. rewrite N.eqb_refl. reflexivity.
  - intros i j a b L A B. apply nth_error_snoc in A. apply nth_error_snoc in B.
    destruct B as [B|[B ->]].
    + destruct A as [A|[A ->]].
      * destruct (H5 _ _ _ _ L A B) as (x & y & X & Y & Z). exists x, y. rewrite !first_position_app, X, Y. auto.
      * exfalso. assert (K : nth_error ss j <> None) by congruence. apply nth_error_Some in K. lia.
    + destruct A as [A|[A ->]]; [|lia].
      assert (Ha : In a ss) by (eapply nth_error_In; exact A).
      assert (a <> 0) by (intros ->; auto).
      destruct (proj2 (first_position_in a done)) as [x Hx]; [apply H3; auto|].
      exists x, (length done). rewrite !first_position_app, Hx, Hfp. simpl. rewrite N.eqb_refl. simpl.
      split; [reflexivity|]. split; [f_equal; lia|]. apply first_position_lt in Hx. exact Hx.
Qed.

Lemma convert_inv l : conv_inv l (convert l).
Proof.
  unfold convert. rewrite <- fold_left_rev_right.
  assert (G : forall l acc done, conv_inv done acc -> conv_inv (done ++ l) (fold_left convert_one l acc)).
  { clear. induction l as [|w l IH]; intros acc done H; simpl; [rewrite app_nil_r; exact H|].
    replace (done ++ w :: l) with ((done ++ [w]) ++ l) by (rewrite <- app_assoc; reflexivity).
    apply IH. apply conv_step. exact H. }
  rewrite fold_left_rev_right. apply (G l ([], []) []). constructor; simpl; auto.
  - constructor.
  - intros s _. split; [intros []|intros [m []]].
  - intros [|i] s m; discriminate.
  - intros i [|j] s t; discriminate.
Qed.

(* ================= fences ================= *)

Definition is_inflight (s : fence_status) : bool := match s with InFlight => true | _ => false end.

Lemma fence_calls_safe l : forall f s,
  (forall x, In (FWait x) l -> x = true) -> (f_waited f = true -> s = Signalled) -> f_handle f = true ->
  possible s (snd (fence_calls f l)) -> resets_safe (is_inflight s) (snd (fence_calls f l)).
Proof.
  induction l as [|c l IH]; intros f s Hw Hf Hh Hp; simpl; [exact I|].
  assert (Hw' : forall x, In (FWait x) l -> x = true) by (intros; apply Hw; right; assumption).
  destruct f as [h w]. simpl in Hh. subst h.
  destruct c as [|x|]; simpl in *.
  - unfold fence_reset in *. simpl in *. destruct w; simpl in *.
    + rewrite (Hf eq_refl) in *. simpl.
      specialize (IH {| f_handle := true; f_waited := false |} Unsignalled Hw').
      destruct (fence_calls {| f_handle := true; f_waited := false |} l) as [f' l2]. simpl in *.
      split; [reflexivity|]. apply IH; auto; discriminate.
    + specialize (IH {| f_handle := true; f_waited := false |} Unsignalled Hw').
      destruct (fence_calls {| f_handle := true; f_waited := false |} l) as [f' l2]. simpl in *.
      destruct Hp as [_ Hp]. split; [reflexivity|]. apply IH; auto; discriminate.
  - assert (x = true) by (apply Hw; left; reflexivity). subst x.
    unfold fence_wait in *. simpl in *.
    specialize (IH {| f_handle := true; f_waited := true |} Signalled Hw').
    destruct (fence_calls {| f_handle := true; f_waited := true |} l) as [f' l2]. simpl in *.
    destruct Hp as [_ Hp]. apply IH; auto.
  - specialize (IH {| f_handle := true; f_waited := w |} InFlight Hw').
    destruct (fence_calls {| f_handle := true; f_waited := w |} l) as [f' l2]. simpl in *.
    destruct Hp as [-> Hp]. apply IH; auto. intro. specialize (Hf H). discriminate.
Qed.

(* Without handle nothing reaches the fence of the device. *)
Lemma fence_calls_null l : forall f, f_handle f = false -> forall c, In c (snd (fence_calls f l)) -> c = DSubmit.
Proof.
  induction l as [|c l IH]; intros f Hf d Hd; simpl in *; [contradiction|].
  destruct c as [|x|]; unfold fence_reset, fence_wait in *; simpl in *; rewrite ?Hf in *; simpl in *.
  - specialize (IH {| f_handle := false; f_waited := false |} eq_refl).
    destruct (fence_calls {| f_handle := false; f_waited := false |} l). simpl in *. auto.
  - specialize (IH {| f_handle := false; f_waited := true |} eq_refl).
    destruct (fence_calls {| f_handle := false; f_waited := true |} l). simpl in *. auto.
  - specialize (IH f Hf). destruct (fence_calls f l). simpl in *. destruct Hd as [<-|Hd]; auto.
Qed.

(* ================= submissions of a graph ================= *)
Lemma dev_run_app l1 l2 d : dev_run d (l1 ++ l2) = match dev_run d l1 with Some d' => dev_run d' l2 | None => None end.
Proof. revert d. induction l1 as [|c l1 IH]; intro d; simpl; [reflexivity|]. destruct (dev_step d c); auto. Qed.

(* between two calls of a graph with passes *)
Definition graph_inv (f : fence) (d : dev) : Prop :=
  f_handle f = true /\
  ((d_fence d = Signalled /\ d_cb d <> PendingCB) \/ (d_fence d = InFlight /\ d_cb d = PendingCB /\ True)).

Definition library_call (c : gcall) : Prop := c <> GResetFence.

Lemma graph_call_ok n f d c : graph_inv f d -> library_call c ->
  exists d', dev_run d (snd (graph_call f (S n) c)) = Some d' /\ graph_inv (fst (graph_call f (S n) c)) d'.
Proof.
  destruct f as [h w], d as [fs cb]. intros [Hh Hd] Hc. simpl in Hh. subst h.
  destruct c as [t|t|b|]; [| | |congruence]; simpl.
  - destruct Hd as [[A B]|[A [B _]]]; simpl in A, B; subst.
    + destruct t, cb; simpl; (eexists; split; [reflexivity|split; [reflexivity|left; split; simpl; congruence]]) || congruence.
    + destruct t; simpl; (eexists; split; [reflexivity|split; [reflexivity|left; split; simpl; congruence]]).
  - unfold run_calls, fence_reset. simpl. destruct Hd as [[A B]|[A [B _]]]; simpl in A, B; subst.
    + destruct t, cb; simpl; try congruence;
        (eexists; split; [reflexivity|split; [reflexivity|first [left; split; simpl; congruence|right; simpl; auto]]]).
    + destruct t; simpl; (eexists; split; [reflexivity|split; [reflexivity|first [left; split; simpl; congruence|right; simpl; auto]]]).
  - destruct b; simpl.
    + destruct Hd as [[A B]|[A [B _]]]; simpl in A, B; subst; simpl;
        (eexists; split; [reflexivity|split; [reflexivity|left; split; simpl; auto; congruence]]).
    + eexists; split; [reflexivity|]. split; [reflexivity|exact Hd].
Qed.

Lemma graph_calls_ok n l : forall f d, graph_inv f d -> (forall c, In c l -> library_call c) ->
  exists d', dev_run d (snd (graph_calls f (S n) l)) = Some d'.
Proof.
  induction l as [|c l IH]; intros f d Hi Hl; simpl; [eexists; reflexivity|].
  destruct (graph_call_ok n f d c Hi (Hl c (or_introl eq_refl))) as (d1 & E1 & Hi1).
  destruct (graph_call f (S n) c) as [f1 l1]. simpl in *.
  destruct (IH f1 d1 Hi1 (fun x Hx => Hl x (or_intror Hx))) as [d2 E2].
  destruct (graph_calls f1 (S n) l) as [f2 l2]. simpl in *. exists d2. rewrite dev_run_app, E1. exact E2.
Qed.

Lemma graph_starts_ok : graph_inv (new_fence true) dev_start.
Proof. split; [reflexivity|left; split; [reflexivity|discriminate]]. Qed.
