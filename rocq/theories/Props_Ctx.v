(* C42, C65, C66: memory types, leak report, deletion queue. *)
From Verif Require Import Spec_Ctx Proof_Layout Proof_Run3.
From Coq Require Import Permutation PeanoNat.
Local Open Scope N_scope.

Lemma flags_contain f r : N.land f r = r <-> forall b, N.testbit r b = true -> N.testbit f b = true.
Proof.
  split.
  - intros E b Hb. rewrite <- E, N.land_spec in Hb. apply andb_prop in Hb. apply Hb.
  - intro H. apply N.bits_inj. intro b. rewrite N.land_spec. destruct (N.testbit r b) eqn:E; [rewrite (H b E); reflexivity|apply andb_false_r].
Qed.
Lemma low_bit b : N.land b 1 = 1 <-> N.testbit b 0 = true.
Proof.
  rewrite flags_contain. split; [intro H; apply H; reflexivity|]. intros H i Hi. destruct (N.eq_dec i 0) as [->|n]; [exact H|].
  exfalso. destruct i as [|p]; [contradiction|]. cbn in Hi. destruct p; discriminate.
Qed.
Lemma usable_0 f r bits req : usable (f :: r) bits req 0 <-> andb (N.eqb (N.land bits 1) 1) (N.eqb (N.land f req) req) = true.
Proof.
  rewrite Bool.andb_true_iff, !N.eqb_eq, low_bit, flags_contain. unfold usable. cbn [nth_error]. split.
  - intros [A (g & E & B)]. injection E as <-. auto.
  - intros [A B]. eauto.
Qed.
Lemma usable_S f r bits req i : usable (f :: r) bits req (S i) <-> usable r (N.shiftr bits 1) req i.
Proof.
  unfold usable. cbn [nth_error]. rewrite N.shiftr_spec by lia. replace (N.of_nat (S i)) with (N.of_nat i + 1) by lia. reflexivity.
Qed.
Lemma deduce_spec types : forall start bits req, N.of_nat (List.length types) + start < 2 ^ 32 ->
  match deduce_from start types bits req with
  | Some i => exists k, i = start + N.of_nat k /\ usable types bits req k /\ forall j, (j < k)%nat -> ~ usable types bits req j
  | None => forall j, ~ usable types bits req j
  end.
Proof.
  induction types as [|f r IH]; intros start bits req Hn.
  - cbn. intros j [_ (g & E & _)]. destruct j; discriminate.
  - cbn [deduce_from]. destruct (andb _ _) eqn:E.
    + exists 0%nat. split; [lia|]. split; [apply usable_0, E|lia].
    + assert (N0 : ~ usable (f :: r) bits req 0) by (rewrite usable_0; congruence).
      cbn [List.length] in Hn. assert (U : u32 (start + 1) = start + 1) by (apply N.mod_small; lia). rewrite U.
      specialize (IH (start + 1) (N.shiftr bits 1) req ltac:(lia)). destruct (deduce_from _ r _ _) as [i|].
      * destruct IH as (k & -> & A & B). exists (S k). split; [lia|]. split; [apply usable_S, A|].
        intros [|j] Hj; [exact N0|rewrite usable_S; apply B; lia].
      * intros [|j]; [exact N0|rewrite usable_S; apply IH].
Qed.

(* C42: the type found is the first usable one. *)
Theorem C42_first_usable : forall types bits req i, (List.length types <= 32)%nat ->
  (deduceMemoryType types bits req = Some (N.of_nat i) <->
   usable types bits req i /\ forall j, (j < i)%nat -> ~ usable types bits req j).
Proof.
  intros types bits req i Hn. pose proof (deduce_spec types 0 bits req ltac:(lia)) as H. unfold deduceMemoryType.
  destruct (deduce_from 0 types bits req) as [n|]; split.
  - intro E. injection E as ->. destruct H as (k & E & A & B). assert (k = i) by lia. subst k. auto.
  - intros [A B]. destruct H as (k & -> & A' & B'). f_equal.
    destruct (Nat.lt_trichotomy k i) as [C|[->|C]]; [destruct (B k C A')|lia|destruct (B' i C A)].
  - discriminate.
  - intros [A _]. destruct (H i A).
Qed.
Print Assumptions C42_first_usable.
(* C42: and the error is raised exactly when there is none. *)
Theorem C42_error_iff_none : forall types bits req, (List.length types <= 32)%nat ->
  (deduceMemoryType types bits req = None <-> forall i, ~ usable types bits req i).
Proof.
  intros types bits req Hn. pose proof (deduce_spec types 0 bits req ltac:(lia)) as H. unfold deduceMemoryType.
  destruct (deduce_from 0 types bits req) as [n|]; split; try discriminate; auto.
  intro X. destruct H as (k & _ & A & _). destruct (X k A).
Qed.
Print Assumptions C42_error_iff_none.
Example C42_example : deduceMemoryType [1; 6; 7; 15] 0xE 3 = Some 2 /\ deduceMemoryType [1; 6; 7; 15] 0xE 16 = None /\ usable [1; 6; 7; 15] 0xE 3 2.
Proof. split; [reflexivity|]. split; [reflexivity|]. split; [reflexivity|]. exists 7. split; [reflexivity|]. intros b H. destruct b as [|[p|p|]]; [reflexivity| | |reflexivity]; destruct p; discriminate. Qed.

(* Registry. *)
Definition tracks (m : nmap (string * string)) (alive : list (N * string * string)) : Prop :=
  keys_sorted m /\ NoDup (map (fun x : N * string * string => fst (fst x)) alive) /\ (forall h t n, mfind h m = Some (t, n) <-> In (h, t, n) alive) /\
  (forall x, In x alive -> fst (fst x) <> 0).
Lemma find_key alive h t n t' n' : NoDup (map (fun x : N * string * string => fst (fst x)) alive) -> In (h, t, n) alive -> In (h, t', n') alive -> (t, n) = (t', n') :> string * string.
Proof.
  induction alive as [|x l IH]; cbn; [intros _ []|]. intros D H1 H2. inversion D as [|? ? Hx D']; subst.
  destruct H1 as [->|H1], H2 as [E|H2].
  - injection E as -> ->. reflexivity.
  - destruct Hx. apply (in_map (fun x => fst (fst x))) in H2. exact H2.
  - subst x. destruct Hx. apply (in_map (fun x => fst (fst x))) in H1. exact H1.
  - apply IH; auto.
Qed.
Lemma tracks_step m alive l : tracks m alive -> legal_step true alive l -> tracks (reg_step m (recorded l)) (life_step alive l).
Proof.
  intros (S & D & F & Z) L. destruct l as [h t n|h t]; cbn [recorded reg_step life_step legal_step] in *.
  - destruct L as [Hz L]. assert (X : forall t' n', ~ In (h, t', n') alive). { intros t' n' H. destruct (L h t' n' H eq_refl). discriminate. }
    repeat split.
    + apply mput_sorted, S.
    + rewrite map_app. cbn. apply Permutation_NoDup with (h :: map (fun x => fst (fst x)) alive).
      * apply Permutation_cons_append.
      * constructor; [|exact D]. rewrite in_map_iff. intros ([[h' t'] n'] & E & H). cbn in E. subst. apply (X t' n' H).
    + rewrite mfind_mput. destruct (N.eqb_spec h0 h) as [E|E].
      * subst. intro E. injection E as <- <-. apply in_app_iff. right. left. reflexivity.
      * intro H. apply in_app_iff. left. apply F, H.
    + rewrite mfind_mput. intro H. apply in_app_iff in H. destruct (N.eqb_spec h0 h) as [E|E].
      * subst. destruct H as [H|[H|[]]]; [destruct (X _ _ H)|]. injection H as <- <-. reflexivity.
      * destruct H as [H|[H|[]]]; [apply F, H|]. injection H as -> -> ->. contradiction.
    + intros x H. apply in_app_iff in H. destruct H as [H|[<-|[]]]; [apply Z, H|exact Hz].
  - destruct L as [n L]. assert (Hz : h <> 0) by apply (Z _ L). destruct (N.eqb_spec h 0) as [?|_]; [contradiction|].
    assert (K : forall x, In x alive -> fst (fst x) = h -> snd (fst x) = t).
    { intros [[h' t'] n'] H E. cbn in *. subst. pose proof (find_key _ _ _ _ _ _ D H L) as E. injection E as -> _. reflexivity. }
    repeat split.
    + apply merase_sorted, S.
    + clear - D. induction alive as [|x l IH]; [constructor|]. cbn in D. inversion D; subst. cbn [filter]. destruct (negb _); cbn; [|auto].
      constructor; [|auto]. intro H. apply H1. apply in_map_iff in H. destruct H as (y & E & H). apply in_map_iff. exists y. split; [exact E|]. apply filter_In in H. apply H.
    + rewrite merase_find. destruct (N.eqb_spec h0 h) as [E|E]; [discriminate|]. intro H. apply filter_In. split; [apply F, H|]. cbn.
      destruct (N.eqb_spec h0 h); [contradiction|reflexivity].
    + rewrite merase_find. intro H. apply filter_In in H. destruct H as [H1 H2]. destruct (N.eqb_spec h0 h) as [E|E].
      * subst. specialize (K _ H1 eq_refl). cbn in K. subst. cbn in H2. rewrite N.eqb_refl, String.eqb_refl in H2. discriminate.
      * apply F, H1.
    + intros x H. apply filter_In in H. apply Z, H.
Qed.
Lemma tracks_run ls : forall m alive, tracks m alive -> legal_from true alive ls ->
  tracks (fold_left reg_step (map recorded ls) m) (fold_left life_step ls alive).
Proof. induction ls as [|l r IH]; intros m alive T L; [exact T|]. destruct L as [L1 L2]. cbn [map fold_left]. apply IH; [apply tracks_step; auto|exact L2]. Qed.
Lemma sorted_nodup {V} (m : nmap V) : keys_sorted m -> NoDup m.
Proof.
  intro S. apply NoDup_map_inv with (f := fst). unfold keys_sorted in S. induction S as [|a l S IH F]; constructor; [|exact IH].
  intro H. rewrite Forall_forall in F. specialize (F _ H). lia.
Qed.

(* C65: when no two living objects have the same handle, the report of the context is exactly the living objects. *)
Theorem C65_report_partial : forall ls, legal true ls ->
  Permutation (leak_report (map recorded ls)) (map (fun x => (snd (fst x), snd x)) (alive_objects ls)).
Proof.
  intros ls L. assert (T0 : tracks [] []). { split; [constructor|]. split; [constructor|]. split; [|intros x []]. intros h t n. split; [discriminate|intros []]. }
  destruct (tracks_run ls [] [] T0 L) as (S & D & F & _). unfold leak_report, registry, alive_objects. revert S D F.
  generalize (fold_left reg_step (map recorded ls) []) (fold_left life_step ls []). clear. intros m alive S D F.
  rewrite <- (map_map (fun x : N * string * string => (fst (fst x), (snd (fst x), snd x))) snd).
  apply Permutation_map, NoDup_Permutation.
  - apply sorted_nodup, S.
  - apply NoDup_map_inv with (f := fst). rewrite map_map. exact D.
  - intros [h [t n]]. rewrite in_map_iff. split.
    + intro H. apply (in_mfind _ _ _ S), F in H. exists (h, t, n). auto.
    + intros ([[h' t'] n'] & E & H). cbn in E. injection E as -> -> ->. apply mfind_in', F, H.
Qed.
Print Assumptions C65_report_partial.
Local Open Scope string_scope.
Example C65_example : exists ls, legal true ls /\ leak_report (map recorded ls) = [("VkImage", "b")].
Proof.
  exists [Create 5 "VkBuffer" "a"; Destroy 5 "VkBuffer"; Create 5 "VkImage" "b"]. split; [|reflexivity].
  split; [split; [discriminate|intros ? ? ? []]|]. split; [exists "a"; left; reflexivity|]. split; [split; [discriminate|intros ? ? ? []]|exact I].
Qed.
(* C65 fails when two objects of different types have the same handle, which Vulkan allows: a living object is not reported. *)
Theorem C65_shared_handle_refuted : exists ls h t n, legal false ls /\ In (h, t, n) (alive_objects ls) /\ leak_report (map recorded ls) = [].
Proof.
  exists [Create 5 "VkBuffer" "a"; Create 5 "VkImage" "b"; Destroy 5 "VkBuffer"], 5%N, "VkImage", "b".
  split; [|split; [left; reflexivity|reflexivity]].
  split; [split; [discriminate|intros ? ? ? []]|]. split; [split; [discriminate|]|split; [exists "a"; left; reflexivity|exact I]].
  intros h' t' n' [H|[]] _. injection H as <- <- <-. split; [reflexivity|discriminate].
Qed.
Print Assumptions C65_shared_handle_refuted.
Local Close Scope string_scope.

(* Deletion queue. *)
Lemma pushed_app a b : pushed (a ++ b) = pushed a ++ pushed b. Proof. apply flat_map_app. Qed.
Lemma called_app a b : called (a ++ b) = called a ++ called b. Proof. apply flat_map_app. Qed.
Lemma push_all l : forall s, let s' := fold_left queue_push l s in
  qs_queue s' = qs_queue s ++ l /\ pushed (qs_log s') = pushed (qs_log s) ++ l /\ called (qs_log s') = called (qs_log s).
Proof.
  induction l as [|f l IH]; intro s; [cbn; rewrite !app_nil_r; auto|]. cbn [fold_left]. destruct (IH (queue_push s f)) as (A & B & C).
  cbn zeta in *. rewrite A, B, C. cbn [queue_push qs_queue qs_log]. rewrite pushed_app, called_app, <- !app_assoc, app_nil_r. auto.
Qed.
Lemma call_all p l : forall s, let s' := fold_left (queue_call p) l s in
  exists new, qs_queue s' = qs_queue s ++ new /\ pushed (qs_log s') = pushed (qs_log s) ++ new /\ called (qs_log s') = called (qs_log s) ++ l.
Proof.
  induction l as [|f l IH]; intro s; [exists []; cbn; rewrite !app_nil_r; auto|]. cbn [fold_left].
  destruct (IH (queue_call p s f)) as (new & A & B & C). cbn zeta in *.
  destruct (push_all (p f) {| qs_queue := qs_queue s; qs_log := qs_log s ++ [Called f] |}) as (A' & B' & C'). cbn zeta in A', B', C'.
  change (fold_left queue_push (p f) {| qs_queue := qs_queue s; qs_log := qs_log s ++ [Called f] |}) with (queue_call p s f) in A', B', C'.
  rewrite A' in A. rewrite B' in B. rewrite C' in C. cbn [qs_queue qs_log] in *. rewrite ?pushed_app, ?called_app in *. cbn in B, C.
  exists (p f ++ new). rewrite A, B, C, <- !app_assoc, ?app_nil_r. auto.
Qed.
Definition fifo (s : queue_state) : Prop := pushed (qs_log s) = called (qs_log s) ++ qs_queue s.
Lemma fifo_step p s o : fifo s -> fifo (queue_step p s o).
Proof.
  unfold fifo. intro H. destruct o as [f|]; cbn [queue_step].
  - cbn [queue_push qs_log qs_queue]. rewrite pushed_app, called_app, H, <- app_assoc. cbn. rewrite ?app_nil_r. reflexivity.
  - destruct (call_all p (qs_queue s) {| qs_queue := []; qs_log := qs_log s |}) as (new & A & B & C). cbn zeta in *. rewrite A, B, C. cbn [qs_queue qs_log].
    rewrite H, <- !app_assoc. reflexivity.
Qed.
Lemma fifo_run p ops : forall s, fifo s -> fifo (queue_run p s ops).
Proof. induction ops as [|o r IH]; intros s H; [exact H|]. apply IH, fifo_step, H. Qed.

(* C66: the functions called are the first ones pushed, each once and in that order... *)
Theorem C66_in_order : forall pushes ops, exists waiting,
  let l := qs_log (queue_run pushes new_queue ops) in pushed l = called l ++ waiting.
Proof. intros p ops. eexists. apply (fifo_run p ops new_queue). reflexivity. Qed.
Print Assumptions C66_in_order.
(* ... and after a clear, all those pushed before it were called, and the ones pushed by the functions it called wait. *)
Theorem C66_clear_calls_all : forall pushes ops,
  let before := qs_log (queue_run pushes new_queue ops) in
  let after := qs_log (queue_run pushes new_queue (ops ++ [Clear])) in
  called after = pushed before.
Proof.
  intros p ops. cbn zeta. unfold queue_run at 1. rewrite fold_left_app. cbn [fold_left queue_step]. fold (queue_run p new_queue ops).
  pose proof (fifo_run p ops new_queue eq_refl) as F. unfold fifo in F.
  destruct (call_all p (qs_queue (queue_run p new_queue ops)) {| qs_queue := []; qs_log := qs_log (queue_run p new_queue ops) |}) as (new & _ & _ & C).
  cbn zeta in C. rewrite C. cbn [qs_log]. rewrite F. reflexivity.
Qed.
Print Assumptions C66_clear_calls_all.
Example C66_example : let p f := if N.eqb f 1 then [3] else [] in
  qs_log (queue_run p new_queue [Push 1; Push 2; Clear; Push 4; Clear]) =
  [Pushed 1; Pushed 2; Called 1; Pushed 3; Called 2; Pushed 4; Called 3; Called 4].
Proof. reflexivity. Qed.
