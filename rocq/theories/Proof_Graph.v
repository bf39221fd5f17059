From Verif Require Import Spec_Deps Proof_Deps.
From Coq Require Import Arith ZifyBool ZifyNat ZifyN.
Local Open Scope N_scope.

Lemma fold_left_inv {A B} (P : A -> Prop) (f : A -> B -> A) l : (forall a b, In b l -> P a -> P (f a b)) -> forall a, P a -> P (fold_left f l a).
Proof.
  induction l as [|b l IH]; intros H a Ha; cbn; [exact Ha|]. apply IH; [intros; apply H; [right; assumption|assumption]|]. apply H; [left; reflexivity|exact Ha].
Qed.

Lemma fold_left_hit {A B} (P Q : A -> Prop) (f : A -> B -> A) l b0 : In b0 l -> (forall a b, In b l -> P a -> P (f a b)) ->
  (forall a, P a -> Q (f a b0)) -> (forall a b, In b l -> P a -> Q a -> Q (f a b)) -> forall a, P a -> Q (fold_left f l a).
Proof.
  induction l as [|b l IH]; intros Hin HP HQ HK a Ha; [destruct Hin|]. cbn. destruct Hin as [->|Hin].
  - assert (H : P (fold_left f l (f a b0)) /\ Q (fold_left f l (f a b0))).
    { apply (fold_left_inv (fun s => P s /\ Q s) f l).
      - intros s b Hb [H1 H2]. split; [apply HP; [right; exact Hb|exact H1]|apply HK; [right; exact Hb|exact H1|exact H2]].
      - split; [apply HP; [left; reflexivity|exact Ha]|apply HQ; exact Ha]. }
    apply H.
  - apply IH; auto.
    + intros a1 b1 H1. apply HP. right. exact H1.
    + intros a1 b1 H1. apply HK. right. exact H1.
    + apply HP; [left; reflexivity|exact Ha].
Qed.

Lemma pass_of_unique w p : NoDup (map d_id w) -> In p w -> pass_of w (d_id p) = p.
Proof.
  induction w as [|x w IH]; intros Hn Hp; [destruct Hp|]. cbn in *. inversion Hn as [|? ? Hx Hn']; subst.
  destruct Hp as [->|Hp]; [rewrite N.eqb_refl; reflexivity|]. destruct (N.eqb_spec (d_id x) (d_id p)) as [E|E]; [|apply IH; assumption].
  exfalso. apply Hx. rewrite E. apply in_map. exact Hp.
Qed.

Lemma list_eqb_trans {A} (e : A -> A -> bool) : (forall x y z, e x y = true -> e y z = true -> e x z = true) ->
  forall a b c, list_eqb e a b = true -> list_eqb e b c = true -> list_eqb e a c = true.
Proof.
  intro He. induction a as [|x a IH]; intros [|y b] [|z c] H1 H2; cbn in *; try discriminate; [reflexivity|].
  apply andb_true_iff in H1, H2. destruct H1 as [A1 A2], H2 as [B1 B2]. apply andb_true_iff. split; [apply (He x y z); assumption|apply (IH b c); assumption].
Qed.
Lemma attach_eqb_trans a b c : attach_eqb a b = true -> attach_eqb b c = true -> attach_eqb a c = true.
Proof.
  unfold attach_eqb. rewrite !andb_true_iff. intros H1 H2. decompose [and] H1; decompose [and] H2; clear H1 H2.
  assert (EN : forall x y z, N.eqb x y = true -> N.eqb y z = true -> N.eqb x z = true) by (intros x y z E1 E2; apply N.eqb_eq in E1, E2; subst; apply N.eqb_refl).
  assert (EO : forall x y z, opt_eqb x y = true -> opt_eqb y z = true -> opt_eqb x z = true).
  { intros [x|] [y|] [z|] E1 E2; cbn in *; try discriminate; try reflexivity. apply (EN x y z); assumption. }
  repeat split; try (eapply EN; eassumption); try (eapply EO; eassumption); (eapply list_eqb_trans; [|eassumption|eassumption]; intros x y z; apply EN).
Qed.

Lemma list_eqb_sym {A} (e : A -> A -> bool) : (forall x y, e x y = true -> e y x = true) -> forall a b, list_eqb e a b = true -> list_eqb e b a = true.
Proof.
  intro He. induction a as [|x a IH]; intros [|y b] H1; cbn in *; try discriminate; [reflexivity|].
  apply andb_true_iff in H1. destruct H1 as [A1 A2]. apply andb_true_iff. split; [apply He; exact A1|apply IH; exact A2].
Qed.
Lemma attach_eqb_sym a b : attach_eqb a b = true -> attach_eqb b a = true.
Proof.
  unfold attach_eqb. rewrite !andb_true_iff. intros H1. decompose [and] H1; clear H1.
  assert (EN : forall x y, N.eqb x y = true -> N.eqb y x = true) by (intros x y E1; rewrite N.eqb_sym; exact E1).
  assert (EO : forall x y, opt_eqb x y = true -> opt_eqb y x = true) by (intros [x|] [y|] E1; cbn in *; try discriminate; [apply EN; exact E1|reflexivity]).
  repeat split; try (apply EN; assumption); try (apply EO; assumption); (apply list_eqb_sym; [intros x y; apply EN|assumption]).
Qed.

Section Build.
  Context {D : Type} (k : traits D) (w : world) (att : dpass -> list attach) (U : D -> Prop) (FP : D -> N -> N -> Prop) (Inv : dcache -> Prop).
  Definition din (a : attach) : Prop := exists p, In p w /\ In a (att p) /\ k_isInput k a = true.
  Definition dout (a : attach) : Prop := exists p, In p w /\ In a (att p) /\ k_isOutput k a = true.
  Hypothesis Hq : forall i o d c, In o (map d_id w) -> U d -> Inv c ->
    exists b c', k_dependsOn k w i o d c = (b, c') /\ (b = true <-> FP d i o) /\ Inv c'.
  Hypothesis HU : forall a, din a \/ dout a -> U (k_get k a).
  Hypothesis Hgi : forall x y, k_getInput k x y = k_get k x \/ k_getInput k x y = k_get k y.
  Hypothesis Hgo : forall x y, k_getOutput k x y = k_get k x \/ k_getOutput k x y = k_get k y.
  Hypothesis Hsplit : forall a l, In l (k_split k a) -> l = a.
  Hypothesis Hself : forall a, In a (k_split k a).
  Hypothesis Hpass : forall p a, In p w -> In a (att p) -> at_pass a = Some (d_id p).
  Hypothesis Hdef : forall d, at_pass (k_default k d) = None.

  Definition okt (t : transition D) : Prop :=
    U (t_data t) /\ ((dout (t_out t) /\ din (t_in t) /\ (t_data t = k_get k (t_out t) \/ t_data t = k_get k (t_in t)))
                     \/ (at_pass (t_out t) = None /\ (din (t_in t) \/ dout (t_in t))) \/ (at_pass (t_in t) = None /\ (din (t_out t) \/ dout (t_out t)))).
  Lemma okt_query t c : okt t -> Inv c -> exists b c', t_dependsOn k w t c = (b, c') /\ Inv c'.
  Proof.
    intros [HUt Ht] Hc. unfold t_dependsOn. destruct (at_pass (t_in t)) as [i|] eqn:Ei; [|exists false, c; auto].
    destruct (at_pass (t_out t)) as [o|] eqn:Eo; [|exists false, c; auto].
    destruct Ht as [[Ho _]|[[H _]|[H _]]]; [|congruence|congruence]. destruct Ho as (p & Hp & Ha & _).
    rewrite (Hpass p _ Hp Ha) in Eo. injection Eo as <-.
    destruct (Hq i (d_id p) (t_data t) c) as (b & c' & E & _ & Hc'); auto. { apply in_map; exact Hp. } exists b, c'. auto.
  Qed.

  Lemma insert_first_ok t l : forall c o c', Forall okt l -> Inv c -> insert_first k w t l c = (o, c') ->
    Inv c' /\ forall l', o = Some l' -> forall x, In x l' <-> x = t \/ In x l.
  Proof.
    induction l as [|x l IH]; intros c o c' Hl Hc H; cbn in H.
    - injection H as <- <-. split; [exact Hc|]. intros l' E. discriminate.
    - inversion Hl as [|? ? Hx Hl']; subst. destruct (okt_query x c Hx Hc) as (b & c1 & E & Hc1). rewrite E in H. destruct b.
      + injection H as <- <-. split; [exact Hc1|]. intros l' E'. injection E' as <-. intro y. cbn. intuition.
      + destruct (insert_first k w t l c1) as [o1 c2] eqn:E2. destruct (IH c1 o1 c2 Hl' Hc1 E2) as [Hc2 Ho1].
        destruct o1 as [r|]; injection H as <- <-; (split; [exact Hc2|]); intros l' E'; [|discriminate].
        injection E' as <-. intro y. cbn. rewrite (Ho1 r eq_refl y). intuition.
  Qed.
  Lemma insertTransition_ok t l c l' c' : okt t -> Forall okt l -> Inv c -> insertTransition k w t (l, c) = (l', c') ->
    Forall okt l' /\ Inv c' /\ (forall x, In x l -> In x l') /\ (exists x, In x l' /\ (x = t \/ trans_eqb k x t = true)).
  Proof.
    intros Ht Hl Hc H. unfold insertTransition in H. destruct (hasTransition k l t) eqn:Eh.
    - injection H as <- <-. repeat (split; [assumption || (intros; assumption)|]). unfold hasTransition in Eh. apply existsb_exists in Eh.
      destruct Eh as (x & Hx & E). exists x. auto.
    - destruct (insert_first k w t l c) as [[l1|] c1] eqn:E1; destruct (insert_first_ok t l c _ c1 Hl Hc E1) as [Hc1 Hin].
      + injection H as <- <-. specialize (Hin l1 eq_refl). split; [|split; [exact Hc1|split]].
        * apply Forall_forall. intros x Hx. apply Hin in Hx. destruct Hx as [->|Hx]; [exact Ht|]. rewrite Forall_forall in Hl. apply Hl. exact Hx.
        * intros x Hx. apply Hin. right. exact Hx.
        * exists t. split; [apply Hin; left; reflexivity|left; reflexivity].
      + injection H as <- <-. split; [|split; [|split]].
        * apply Forall_app. split; [exact Hl|constructor; [exact Ht|constructor]].
        * destruct l; [exact Hc1|]. destruct (okt_query t c1 Ht Hc1) as (b & c2 & E2 & Hc2). rewrite E2. exact Hc2.
        * intros x Hx. apply in_or_app. left. exact Hx.
        * exists t. split; [apply in_or_app; right; left; reflexivity|left; reflexivity].
  Qed.

  Definition sok (s : bstate (D := D)) : Prop :=
    Forall okt (b_all s) /\ Forall (fun e => Forall okt (snd e)) (b_in s) /\ Forall (fun e => Forall okt (snd e)) (b_out s) /\ Inv (b_cache s).
  Definition covered (t : transition D) (s : bstate (D := D)) : Prop := exists x, In x (b_all s) /\ (x = t \/ trans_eqb k x t = true).
  Definition keeps (s s' : bstate (D := D)) : Prop := forall x, In x (b_all s) -> In x (b_all s').
  Lemma keeps_refl s : keeps s s. Proof. intros x H; exact H. Qed.
  Lemma keeps_trans a b c : keeps a b -> keeps b c -> keeps a c. Proof. intros H1 H2 x H. apply H2, H1, H. Qed.
  Lemma keeps_covered t s s' : keeps s s' -> covered t s -> covered t s'.
  Proof. intros H (x & Hx & E). exists x. split; [apply H; exact Hx|exact E]. Qed.

  Lemma trans_of_ok p l : Forall (fun e : N * list (transition D) => Forall okt (snd e)) l -> Forall okt (trans_of p l).
  Proof.
    intro H. unfold trans_of. destruct (find _ l) as [[q t]|] eqn:E; [|constructor]. apply find_some in E. destruct E as [E _].
    rewrite Forall_forall in H. apply (H _ E).
  Qed.
  Lemma set_trans_ok p t l : Forall okt t -> Forall (fun e : N * list (transition D) => Forall okt (snd e)) l -> Forall (fun e => Forall okt (snd e)) (set_trans p t l).
  Proof.
    intros Ht H. induction H as [|[q u] l Hu Hl IH]; cbn; [constructor; [exact Ht|constructor]|]. destruct (N.eqb q p); constructor; auto.
  Qed.
  Lemma insert_all_ok t s : okt t -> sok s -> sok (insert_all k w t s) /\ keeps s (insert_all k w t s) /\ covered t (insert_all k w t s).
  Proof.
    intros Ht (H1 & H2 & H3 & H4). unfold insert_all. destruct (insertTransition k w t (b_all s, b_cache s)) as [l c] eqn:E.
    destruct (insertTransition_ok t _ _ l c Ht H1 H4 E) as (A & B & C & F). split; [split; [exact A|split; [exact H2|split; [exact H3|exact B]]]|]. split; [exact C|exact F].
  Qed.
  Lemma insert_in_ok p t s : okt t -> sok s -> sok (insert_in k w p t s) /\ b_all (insert_in k w p t s) = b_all s.
  Proof.
    intros Ht (H1 & H2 & H3 & H4). unfold insert_in. destruct (insertTransition k w t (trans_of p (b_in s), b_cache s)) as [l c] eqn:E.
    destruct (insertTransition_ok t _ _ l c Ht (trans_of_ok p _ H2) H4 E) as (A & B & _). split; [|reflexivity].
    split; [exact H1|split; [apply set_trans_ok; assumption|split; [exact H3|exact B]]].
  Qed.
  Lemma insert_out_ok p t s : okt t -> sok s -> sok (insert_out k w p t s) /\ b_all (insert_out k w p t s) = b_all s.
  Proof.
    intros Ht (H1 & H2 & H3 & H4). unfold insert_out. destruct (insertTransition k w t (trans_of p (b_out s), b_cache s)) as [l c] eqn:E.
    destruct (insertTransition_ok t _ _ l c Ht (trans_of_ok p _ H3) H4 E) as (A & B & _). split; [|reflexivity].
    split; [exact H1|split; [exact H2|split; [apply set_trans_ok; assumption|exact B]]].
  Qed.
  Lemma okt_input o i : dout o -> din i -> okt (input_transition k o i).
  Proof.
    intros Ho Hi. split; cbn.
    - destruct (Hgi o i) as [-> | ->]; apply HU; auto.
    - left. repeat split; auto.
  Qed.
  Lemma okt_output o i : dout o -> din i -> okt (output_transition k o i).
  Proof.
    intros Ho Hi. split; cbn.
    - destruct (Hgo o i) as [-> | ->]; apply HU; auto.
    - left. repeat split; auto.
  Qed.
  Lemma addDependency_ok pi po o i s : dout o -> din i -> sok s ->
    sok (addDependency k w pi po o i s) /\ keeps s (addDependency k w pi po o i s) /\ covered (input_transition k o i) (addDependency k w pi po o i s) /\
    (k_match k (k_get k o) (k_get k i) = false -> covered (output_transition k o i) (addDependency k w pi po o i s)).
  Proof.
    intros Ho Hi Hs. unfold addDependency. pose proof (okt_input o i Ho Hi) as Ti. pose proof (okt_output o i Ho Hi) as To.
    destruct (insert_all_ok _ s Ti Hs) as (S1 & K1 & C1). set (s1 := insert_all k w (input_transition k o i) s) in *.
    set (s2 := if k_match k (k_get k o) (k_get k i) then s1 else insert_all k w (output_transition k o i) s1).
    assert (H2 : sok s2 /\ keeps s1 s2 /\ (k_match k (k_get k o) (k_get k i) = false -> covered (output_transition k o i) s2)).
    { unfold s2. destruct (k_match _ _ _); [split; [exact S1|split; [apply keeps_refl|discriminate]]|].
      destruct (insert_all_ok _ s1 To S1) as (S2 & K2 & C2). split; [exact S2|split; [exact K2|intros _; exact C2]]. }
    destruct H2 as (S2 & K2 & C2). destruct (insert_in_ok pi _ s2 Ti S2) as [S3 E3]. set (s3 := insert_in k w pi (input_transition k o i) s2) in *.
    destruct (insert_out_ok po _ s3 To S3) as [S4 E4]. set (s4 := insert_out k w po (output_transition k o i) s3) in *.
    assert (K : keeps s2 s4). { intros x Hx. rewrite E4, E3. exact Hx. }
    split; [exact S4|]. split; [apply (keeps_trans s s1); [exact K1|apply (keeps_trans s1 s2); assumption]|].
    split; [apply (keeps_covered _ s1); [apply (keeps_trans s1 s2); assumption|exact C1]|]. intro E. apply (keeps_covered _ s2); [exact K|apply C2; exact E].
  Qed.
  Lemma buildPassDependency_ok i o s : dout o -> din i -> sok s ->
    let s' := buildPassDependency k w i o s in
    sok s' /\ keeps s s' /\
    (forall pi po, at_pass i = Some pi -> at_pass o = Some po -> FP (k_getOutput k i o) pi po ->
       covered (input_transition k o i) s' /\ (k_match k (k_get k o) (k_get k i) = false -> covered (output_transition k o i) s')).
  Proof.
    intros Ho Hi Hs s'. unfold s', buildPassDependency. destruct Hi as (pi & Hpi & Hai & Hki) eqn:Ei. destruct Ho as (po & Hpo & Hao & Hko) eqn:Eo.
    rewrite (Hpass pi i Hpi Hai), (Hpass po o Hpo Hao).
    destruct (Hq (d_id pi) (d_id po) (k_getOutput k i o) (b_cache s)) as (b & c & -> & Hb & Hc).
    - apply in_map; exact Hpo.
    - destruct (Hgo i o) as [-> | ->]; apply HU; [left; exists pi; auto|right; exists po; auto].
    - apply Hs.
    - set (s1 := {| b_all := b_all s; b_in := b_in s; b_out := b_out s; b_cache := c |}).
      assert (S1 : sok s1). { destruct Hs as (A & B & C & F). split; [exact A|split; [exact B|split; [exact C|exact Hc]]]. }
      destruct b.
      + assert (Ho' : dout o) by (exists po; auto). assert (Hi' : din i) by (exists pi; auto).
        destruct (addDependency_ok (d_id pi) (d_id po) o i s1 Ho' Hi' S1) as (S2 & K2 & C2 & C2'). split; [exact S2|]. split; [exact K2|]. intros; split; assumption.
      + split; [exact S1|]. split; [intros x Hx; exact Hx|]. intros pi' po' E1 E2 HF. injection E1 as <-. injection E2 as <-.
        apply Hb in HF. discriminate.
  Qed.

  (* Remaining attachments *)
  Definition either (a : attach) : Prop := din a \/ dout a.
  Lemma okt_remaining a : either a -> okt (remaining_transition k a).
  Proof.
    intro Ha. unfold remaining_transition. destruct (k_remaining_input k a); (split; [apply HU; exact Ha|right; cbn; rewrite Hdef; auto]).
  Qed.
  Lemma last_in {A} (l : list A) d : l <> [] -> In (last l d) l.
  Proof. induction l as [|x [|y l] IH]; intro H; [congruence|left; reflexivity|]. right. apply IH. discriminate. Qed.
  Lemma addRemaining_ok a s : either a -> sok s -> sok (addRemainingDependency k w a s) /\ keeps s (addRemainingDependency k w a s).
  Proof.
    intros Ha Hs. unfold addRemainingDependency. destruct (at_pass a) as [p|]; [|split; [exact Hs|apply keeps_refl]].
    pose proof (okt_remaining a Ha) as T. destruct (insert_in_ok p _ s T Hs) as [S1 E1]. set (s1 := insert_in k w p (remaining_transition k a) s) in *.
    set (t := last (trans_of p (b_in s1)) (remaining_transition k a)).
    assert (Tt : okt t).
    { unfold t. destruct (trans_of p (b_in s1)) as [|x l] eqn:El; [exact T|]. assert (F : Forall okt (x :: l)). { rewrite <- El. apply trans_of_ok. apply S1. }
      rewrite Forall_forall in F. apply F. apply last_in. discriminate. }
    destruct (insert_all_ok t s1 Tt S1) as (S2 & K2 & _). split; [exact S2|]. intros x Hx. apply K2. rewrite E1. exact Hx.
  Qed.

  (* Groups *)
  Definition gok (P : attach -> Prop) (g : list (group D)) : Prop := forall d l, In (d, l) g -> U d /\ forall a, In a l -> P a.
  Lemma add_attach_in a l x : In x (add_attach a l) -> x = a \/ In x l.
  Proof. unfold add_attach. destruct (existsb _ _); [auto|]. rewrite in_app_iff. cbn. intuition. Qed.
  Lemma insertAttach_ok (P : attach -> Prop) a g : P a -> either a -> gok P g -> gok P (insertAttach k a g).
  Proof.
    intros Ha He. induction g as [|[d l] g IH]; intro H; cbn.
    - intros d l [E|[]]. injection E as <- <-. split; [apply HU; exact He|]. intros x [<-|[]]. exact Ha.
    - destruct (k_eq k d (k_get k a)).
      + intros d' l' [E|E].
        * injection E as <- <-. destruct (H d l (or_introl eq_refl)) as [H1 H2]. split; [exact H1|]. intros x Hx. apply add_attach_in in Hx. destruct Hx as [->|Hx]; auto.
        * apply H. right. exact E.
      + intros d' l' [E|E].
        * injection E as <- <-. apply (H d l (or_introl eq_refl)).
        * apply IH; [|exact E]. intros d0 l0 H0. apply H. right. exact H0.
  Qed.
  Lemma processSource_ok (P : attach -> Prop) a g : P a -> gok P g -> gok P (map (processAttachSource k a) g).
  Proof.
    intros Ha H d l Hd. apply in_map_iff in Hd. destruct Hd as ([d0 l0] & E & H0). unfold processAttachSource in E. cbn in E.
    destruct (H d0 l0 H0) as [H1 H2]. destruct (k_overlap _ _ _); injection E as <- <-; (split; [exact H1|]); auto.
    intros x Hx. apply add_attach_in in Hx. destruct Hx as [->|Hx]; auto.
  Qed.
  Lemma processAttach_ok (P : attach -> Prop) a g all : P a -> (forall x, P x -> either x) -> gok P g -> gok either all ->
    gok P (fst (processAttach k a (g, all))) /\ gok either (snd (processAttach k a (g, all))).
  Proof.
    intros Ha Hi Hg Hall. unfold processAttach.
    apply (fold_left_inv (fun s => gok P (fst s) /\ gok either (snd s)) _ (k_split k a)); [|auto].
    intros [c al] x Hx [H1 H2]. apply Hsplit in Hx. subst x. cbn in *. split.
    - apply insertAttach_ok; auto. apply processSource_ok; auto.
    - apply insertAttach_ok; auto.
  Qed.
  Lemma processAttachs_ok (P : attach -> Prop) sel l g all : (forall a, In a l -> sel a = true -> P a) -> (forall x, P x -> either x) -> gok P g -> gok either all ->
    gok P (fst (processAttachs k sel l (g, all))) /\ gok either (snd (processAttachs k sel l (g, all))).
  Proof.
    intros Hl Hi Hg Hall. unfold processAttachs.
    apply (fold_left_inv (fun s => gok P (fst s) /\ gok either (snd s)) _ l); [|auto].
    intros [c al] x Hx [H1 H2]. destruct (sel x) eqn:E; [|auto]. apply (processAttach_ok P); auto.
  Qed.
  Lemma attachGroups_ok nodes : incl nodes w -> let '(i, o, a) := attachGroups k att nodes in gok din i /\ gok dout o /\ gok either a.
  Proof.
    intro Hn. unfold attachGroups.
    apply (fold_left_inv (fun '(i, o, a) => gok din i /\ gok dout o /\ gok either a) _ nodes).
    - intros [[i o] a] p Hp (H1 & H2 & H3).
      pose proof (processAttachs_ok din (k_isInput k) (att p) i a) as A. destruct (processAttachs k (k_isInput k) (att p) (i, a)) as [i' a'].
      cbn in A. destruct A as [A1 A2]; auto. { intros x Hx Hsel. exists p. auto. } { intros x Hx. left. exact Hx. }
      pose proof (processAttachs_ok dout (k_isOutput k) (att p) o a') as B. destruct (processAttachs k (k_isOutput k) (att p) (o, a')) as [o' a''].
      cbn in B. destruct B as [B1 B2]; auto. { intros x Hx Hsel. exists p. auto. } { intros x Hx. right. exact Hx. }
    - repeat split; intros; match goal with H : In _ [] |- _ => destruct H end.
  Qed.

  Lemma erase_incl d all x : In x (erase_data k d all) -> In x all.
  Proof. induction all as [|g all IH]; cbn; [auto|]. destruct (k_eq k (fst g) d); cbn; intuition. Qed.
  Definition ss := (list (group D) * bstate (D := D))%type.
  Definition ssok (s : ss) : Prop := gok either (fst s) /\ sok (snd s).
  Lemma inner_ok ins outs s : (forall a, In a ins -> din a) -> (forall a, In a outs -> dout a) -> sok s ->
    let s' := fold_left (fun s o => fold_left (fun s i => buildPassDependency k w i o s) ins s) outs s in sok s' /\ keeps s s'.
  Proof.
    intros Hi Ho Hs. cbn. apply (fold_left_inv (fun s' => sok s' /\ keeps s s') _ outs); [|split; [exact Hs|apply keeps_refl]].
    intros s1 o Hin [S1 K1]. apply (fold_left_inv (fun s' => sok s' /\ keeps s s') _ ins); [|auto].
    intros s2 i Hini [S2 K2]. destruct (buildPassDependency_ok i o s2 (Ho o Hin) (Hi i Hini) S2) as (S3 & K3 & _). split; [exact S3|apply (keeps_trans s s2); assumption].
  Qed.
  Lemma buildGroup_ok i o s : (U (fst i) /\ forall a, In a (snd i) -> din a) -> (U (fst o) /\ forall a, In a (snd o) -> dout a) -> ssok s ->
    ssok (buildGroupDependencies k w i o s) /\ keeps (snd s) (snd (buildGroupDependencies k w i o s)).
  Proof.
    intros [Hi1 Hi2] [Ho1 Ho2] [S1 S2]. unfold buildGroupDependencies. destruct (k_overlap _ _ _); [|split; [split; assumption|apply keeps_refl]].
    destruct (inner_ok (snd i) (snd o) (snd s) Hi2 Ho2 S2) as [S3 K3]. cbn in S3, K3. split; [split; [|exact S3]|exact K3]. cbn.
    intros d l H. apply erase_incl in H. apply S1. exact H.
  Qed.
  Lemma builds_ok ins outs s : gok din ins -> gok dout outs -> ssok s ->
    let s' := fold_left (fun s o => fold_left (fun s i => buildGroupDependencies k w i o s) ins s) outs s in ssok s' /\ keeps (snd s) (snd s').
  Proof.
    intros Hi Ho Hs. cbn. apply (fold_left_inv (fun s' => ssok s' /\ keeps (snd s) (snd s')) _ outs); [|split; [exact Hs|apply keeps_refl]].
    intros s1 [d l] Hin [S1 K1]. apply (fold_left_inv (fun s' => ssok s' /\ keeps (snd s) (snd s')) _ ins); [|auto].
    intros s2 [d' l'] Hini [S2 K2]. destruct (buildGroup_ok (d', l') (d, l) s2) as [S3 K3]; [apply (Hi d' l' Hini)|apply (Ho d l Hin)|exact S2|].
    split; [exact S3|apply (keeps_trans (snd s) (snd s2)); assumption].
  Qed.
  Lemma remaining_ok all s : gok either all -> sok s ->
    let s' := fold_left (fun s (g : group D) => fold_left (fun s a => addRemainingDependency k w a s) (snd g) s) all s in sok s' /\ keeps s s'.
  Proof.
    intros Ha Hs. cbn. apply (fold_left_inv (fun s' => sok s' /\ keeps s s') _ all); [|split; [exact Hs|apply keeps_refl]].
    intros s1 [d l] Hin [S1 K1]. cbn. apply (fold_left_inv (fun s' => sok s' /\ keeps s s') _ l); [|auto].
    intros s2 a Hina [S2 K2]. destruct (Ha d l Hin) as [_ He]. destruct (addRemaining_ok a s2 (He a Hina) S2) as [S3 K3]. split; [exact S3|apply (keeps_trans s s2); assumption].
  Qed.
  Lemma all_ok nodes : incl nodes w -> Inv [] -> sok (allTransitions k w att nodes).
  Proof.
    intros Hn HI. unfold allTransitions. pose proof (attachGroups_ok nodes Hn) as G. destruct (attachGroups k att nodes) as [[i o] a].
    destruct G as (Gi & Go & Ga). unfold buildPassDependencies.
    set (s0 := {| b_all := []; b_in := map (fun p => (d_id p, [])) nodes; b_out := map (fun p => (d_id p, [])) nodes; b_cache := [] |} : bstate (D := D)).
    assert (N0 : Forall (fun e : N * list (transition D) => Forall okt (snd e)) (map (fun p => (d_id p, [])) nodes)).
    { apply Forall_forall. intros e He. apply in_map_iff in He. destruct He as (p & <- & _). constructor. }
    assert (S0 : sok s0) by (split; [constructor|split; [exact N0|split; [exact N0|exact HI]]]).
    destruct (builds_ok i o (a, s0) Gi Go (conj Ga S0)) as [[G1 S1] K1]. cbn in G1, S1, K1.
    match goal with |- context [fold_left ?f o (a, s0)] => destruct (fold_left f o (a, s0)) as [a' s1] end. cbn in *.
    apply (remaining_ok a' s1 G1 S1).
  Qed.

  (* Completeness *)
  Hypothesis Hkeq : forall d d', U d -> U d' -> k_eq k d d' = true -> d = d'.
  Hypothesis Hkeq_refl : forall d, k_eq k d d = true.
  Hypothesis Haeq : forall a a', either a -> either a' -> attach_eqb a a' = true -> k_get k a = k_get k a' /\ at_pass a = at_pass a'.
  Hypothesis Haeq_refl : forall a, attach_eqb a a = true.
  (* a group about the data of [a] holds [a], or an equal attachment *)
  Definition holds (a : attach) (g : list (group D)) : Prop := exists l a', In (k_get k a, l) g /\ In a' l /\ attach_eqb a a' = true.
  Lemma add_attach_has a l : exists a', In a' (add_attach a l) /\ attach_eqb a a' = true.
  Proof.
    unfold add_attach. destruct (existsb (attach_eqb a) l) eqn:E.
    - apply existsb_exists in E. destruct E as (x & Hx & E). exists x. auto.
    - exists a. split; [apply in_or_app; right; left; reflexivity|apply Haeq_refl].
  Qed.
  Lemma add_attach_incl a l x : In x l -> In x (add_attach a l).
  Proof. unfold add_attach. destruct (existsb _ _); [auto|]. intro. apply in_or_app. auto. Qed.
  Lemma holds_insert_same (P : attach -> Prop) a g : either a -> gok P g -> holds a (insertAttach k a g).
  Proof.
    intros He. induction g as [|[d l] g IH]; intro Hg; cbn.
    - exists [a], a. split; [left; reflexivity|]. split; [left; reflexivity|apply Haeq_refl].
    - destruct (k_eq k d (k_get k a)) eqn:E.
      + apply Hkeq in E; [|apply (Hg d l); left; reflexivity|apply HU; exact He]. subst d. destruct (add_attach_has a l) as (a' & Ha' & E').
        exists (add_attach a l), a'. split; [left; reflexivity|auto].
      + destruct IH as (l' & a' & H1 & H2). { intros d0 l0 H0. apply Hg. right. exact H0. } exists l', a'. split; [right; exact H1|exact H2].
  Qed.
  Lemma holds_insert_other a b g : holds a g -> holds a (insertAttach k b g).
  Proof.
    intros (l & a' & H1 & H2 & H3). induction g as [|[d l0] g IH]; [destruct H1|]. cbn. destruct H1 as [E|H1].
    - injection E as -> ->. destruct (k_eq k _ _).
      + exists (add_attach b l), a'. split; [left; reflexivity|]. split; [apply add_attach_incl; exact H2|exact H3].
      + exists l, a'. split; [left; reflexivity|auto].
    - destruct (k_eq k _ _).
      + exists l, a'. split; [right; exact H1|auto].
      + destruct (IH H1) as (l' & a'' & H1' & H2'). exists l', a''. split; [right; exact H1'|exact H2'].
  Qed.
  Lemma holds_source a b g : holds a g -> holds a (map (processAttachSource k b) g).
  Proof.
    intros (l & a' & H1 & H2 & H3). unfold holds. destruct (k_overlap k (k_get k b) (k_get k a)) eqn:E.
    - exists (add_attach b l), a'. split; [|split; [apply add_attach_incl; exact H2|exact H3]]. apply in_map_iff. exists (k_get k a, l). split; [|exact H1].
      unfold processAttachSource. cbn. rewrite E. reflexivity.
    - exists l, a'. split; [|auto]. apply in_map_iff. exists (k_get k a, l). split; [|exact H1]. unfold processAttachSource. cbn. rewrite E. reflexivity.
  Qed.
  Lemma holds_process a b s : holds a (fst s) -> holds a (fst (processAttach k b s)).
  Proof.
    intro H. unfold processAttach. apply (fold_left_inv (fun s => holds a (fst s)) _ (k_split k b)); [|exact H].
    intros [c al] x _ H0. cbn in *. apply holds_insert_other, holds_source. exact H0.
  Qed.
  Lemma holds_process_same (P : attach -> Prop) a s : P a -> (forall x, P x -> either x) -> gok P (fst s) -> holds a (fst (processAttach k a s)).
  Proof.
    intros Ha Hi Hg. unfold processAttach. pose proof (Hself a) as Hin. revert s Hg.
    assert (Hs : forall x, In x (k_split k a) -> x = a) by (intros x Hx; apply Hsplit; exact Hx). revert Hs Hin.
    generalize (k_split k a) as l. induction l as [|x l IH]; intros Hs Hin [c al] Hg; [destruct Hin|]. cbn.
    assert (x = a) by (apply Hs; left; reflexivity). subst x. cbn in Hg.
    apply (fold_left_inv (fun s => holds a (fst s)) _ l).
    - intros [c' al'] x _ H0. cbn in *. apply holds_insert_other, holds_source. exact H0.
    - cbn. apply (holds_insert_same P); [apply Hi; exact Ha|]. apply processSource_ok; assumption.
  Qed.
  Lemma holds_processs a sel l s : holds a (fst s) -> holds a (fst (processAttachs k sel l s)).
  Proof.
    intro H. unfold processAttachs. apply (fold_left_inv (fun s => holds a (fst s)) _ l); [|exact H].
    intros s' x _ H0. destruct (sel x); [apply holds_process; exact H0|exact H0].
  Qed.
  Lemma holds_processs_same (P : attach -> Prop) a sel l g all : In a l -> sel a = true -> (forall a, In a l -> sel a = true -> P a) -> (forall x, P x -> either x) ->
    gok P g -> gok either all -> holds a (fst (processAttachs k sel l (g, all))).
  Proof.
    intros Hin Hs Hl Hi Hg Hall. unfold processAttachs. revert g all Hg Hall. induction l as [|x l IH]; intros g all Hg Hall; [destruct Hin|]. cbn.
    destruct Hin as [->|Hin].
    - rewrite Hs. apply (holds_processs a sel l). apply (holds_process_same P); auto. apply Hl; [left; reflexivity|exact Hs].
    - assert (Hl' : forall a, In a l -> sel a = true -> P a) by (intros; apply Hl; [right; assumption|assumption]).
      destruct (sel x) eqn:E; [|apply IH; assumption].
      destruct (processAttach_ok P x g all) as [G1 G2]; auto. { apply Hl; [left; reflexivity|exact E]. }
      destruct (processAttach k x (g, all)) as [g' all']. apply IH; assumption.
  Qed.
  Lemma groups_hold nodes p a : incl nodes w -> In p nodes -> In a (att p) ->
    let '(i, o, _) := attachGroups k att nodes in
    (k_isInput k a = true -> holds a i) /\ (k_isOutput k a = true -> holds a o).
  Proof.
    intros Hn Hp Ha. unfold attachGroups.
    assert (G0 : gok din [] /\ gok dout [] /\ gok either []) by (repeat split; intros; match goal with H : In _ [] |- _ => destruct H end).
    revert G0. generalize (@nil (group D)) at 1 4 as gi. generalize (@nil (group D)) at 1 3 as go. generalize (@nil (group D)) as ga.
    induction nodes as [|q nodes IH]; intros ga go gi (H1 & H2 & H3); [destruct Hp|]. cbn [fold_left].
    assert (Hqw : In q w) by (apply Hn; left; reflexivity).
    pose proof (processAttachs_ok din (k_isInput k) (att q) gi ga) as A.
    pose proof (holds_processs_same din a (k_isInput k) (att q) gi ga) as A'.
    destruct (processAttachs k (k_isInput k) (att q) (gi, ga)) as [i' a'].
    cbn in A, A'. destruct A as [A1 A2]; auto. { intros x Hx Hsel. exists q. auto. } { intros x Hx. left. exact Hx. }
    pose proof (processAttachs_ok dout (k_isOutput k) (att q) go a') as B.
    pose proof (holds_processs_same dout a (k_isOutput k) (att q) go a') as B'.
    destruct (processAttachs k (k_isOutput k) (att q) (go, a')) as [o' a''].
    cbn in B, B'. destruct B as [B1 B2]; auto. { intros x Hx Hsel. exists q. auto. } { intros x Hx. right. exact Hx. }
    destruct Hp as [->|Hp].
    - match goal with |- context [fold_left ?f nodes (i', o', a'')] =>
        pose proof (fold_left_inv (fun '(i, o, _) => (k_isInput k a = true -> holds a i) /\ (k_isOutput k a = true -> holds a o)) f nodes) as F end.
      apply F.
      + intros [[i o] al] q _ [F1 F2].
        pose proof (holds_processs a (k_isInput k) (att q) (i, al)) as X. destruct (processAttachs k (k_isInput k) (att q) (i, al)) as [i2 a2].
        pose proof (holds_processs a (k_isOutput k) (att q) (o, a2)) as Y. destruct (processAttachs k (k_isOutput k) (att q) (o, a2)) as [o2 a3].
        cbn in X, Y. auto.
      + split; intro Hsel; [apply A'|apply B']; auto.
        * intros x Hx Hx'. exists p. auto.
        * intros x Hx. left. exact Hx.
        * intros x Hx Hx'. exists p. auto.
        * intros x Hx. right. exact Hx.
    - apply IH; auto. intros x Hx. apply Hn. right. exact Hx.
  Qed.

  Definition tcov (tr : attach -> attach -> transition D) (o i : attach) (s : bstate (D := D)) : Prop := covered (tr o i) s.
  Definition made_by (tr : attach -> attach -> transition D) (o i : attach) : Prop :=
    tr = input_transition k \/ (tr = output_transition k /\ k_match k (k_get k o) (k_get k i) = false).
  Lemma inner_covers tr ins outs s i o pi po : (forall a, In a ins -> din a) -> (forall a, In a outs -> dout a) -> sok s ->
    In i ins -> In o outs -> at_pass i = Some pi -> at_pass o = Some po -> FP (k_getOutput k i o) pi po -> made_by tr o i ->
    tcov tr o i (fold_left (fun s o => fold_left (fun s i => buildPassDependency k w i o s) ins s) outs s).
  Proof.
    intros Hi Ho Hs Ii Io Ei Eo HF HM.
    apply (fold_left_hit sok (tcov tr o i) _ outs o Io); [| | |exact Hs].
    - intros s1 o1 H1 S1. apply (fold_left_inv sok _ ins); [|exact S1]. intros s2 i2 H2 S2. apply (buildPassDependency_ok i2 o1 s2); auto.
    - intros s1 S1. apply (fold_left_hit sok (tcov tr o i) _ ins i Ii); [| | |exact S1].
      + intros s2 i2 H2 S2. apply (buildPassDependency_ok i2 o s2); auto.
      + intros s2 S2. destruct (buildPassDependency_ok i o s2 (Ho o Io) (Hi i Ii) S2) as (_ & _ & H). destruct (H pi po Ei Eo HF) as [H1 H2]. destruct HM as [E | [E M]]; unfold tcov; rewrite E; [exact H1|exact (H2 M)].
      + intros s2 i2 H2 S2 C2. destruct (buildPassDependency_ok i2 o s2 (Ho o Io) (Hi i2 H2) S2) as (_ & K & _). apply (keeps_covered _ s2); assumption.
    - intros s1 o1 H1 S1 C1.
      destruct (inner_ok ins [o1] s1 Hi) as [_ K]; [intros a [<-|[]]; apply Ho; exact H1|exact S1|]. cbn in K. apply (keeps_covered _ s1); assumption.
  Qed.
  Lemma buildGroup_covers tr gi go s i o pi po : (U (fst gi) /\ forall a, In a (snd gi) -> din a) -> (U (fst go) /\ forall a, In a (snd go) -> dout a) -> ssok s ->
    k_overlap k (fst gi) (fst go) = true -> In i (snd gi) -> In o (snd go) -> at_pass i = Some pi -> at_pass o = Some po -> FP (k_getOutput k i o) pi po -> made_by tr o i ->
    tcov tr o i (snd (buildGroupDependencies k w gi go s)).
  Proof.
    intros [_ Hi] [_ Ho] [_ Hs] Hov Ii Io Ei Eo HF HM. unfold buildGroupDependencies. rewrite Hov. cbn [snd].
    apply (inner_covers tr (snd gi) (snd go) (snd s) i o pi po); assumption.
  Qed.
  Lemma all_covers_by tr nodes i o pi po : incl nodes w -> Inv [] ->
    (exists p, In p nodes /\ In i (att p) /\ k_isInput k i = true) -> (exists p, In p nodes /\ In o (att p) /\ k_isOutput k o = true) ->
    k_overlap k (k_get k i) (k_get k o) = true -> at_pass i = Some pi -> at_pass o = Some po ->
    (forall i' o', k_get k i' = k_get k i -> k_get k o' = k_get k o -> FP (k_getOutput k i' o') pi po) -> made_by tr o i ->
    exists x o' i', In x (b_all (allTransitions k w att nodes)) /\ at_pass (t_in x) = Some pi /\ at_pass (t_out x) = Some po /\
              (t_data x = k_get k i \/ t_data x = k_get k o) /\ k_get k i' = k_get k i /\ k_get k o' = k_get k o /\
              (t_data x = t_data (tr o' i') \/ k_same k (t_data x) (t_data (tr o' i')) = true).
  Proof.
    intros Hn HI (qi & Qi1 & Qi2 & Qi3) (qo & Qo1 & Qo2 & Qo3) Hov Ei Eo Fq HM0.
    assert (S0 : sok (allTransitions k w att nodes)) by (apply all_ok; assumption).
    assert (Di : din i) by (exists qi; auto). assert (Do : dout o) by (exists qo; auto).
    pose proof (attachGroups_ok nodes Hn) as G. pose proof (groups_hold nodes qi i Hn Qi1 Qi2) as Gi. pose proof (groups_hold nodes qo o Hn Qo1 Qo2) as Go.
    revert S0. unfold allTransitions. destruct (attachGroups k att nodes) as [[ins outs] all].
    destruct Gi as [Gi _]. destruct Go as [_ Go]. specialize (Gi Qi3). specialize (Go Qo3). destruct G as (G1 & G2 & G3).
    destruct Gi as (li & i' & Li1 & Li2 & Li3). destruct Go as (lo & o' & Lo1 & Lo2 & Lo3).
    destruct (G1 _ _ Li1) as [_ Hli]. destruct (G2 _ _ Lo1) as [_ Hlo].
    pose proof (Hli i' Li2) as Di'. pose proof (Hlo o' Lo2) as Do'.
    destruct (Haeq i i' (or_introl Di) (or_introl Di') Li3) as [Ki Pi]. destruct (Haeq o o' (or_intror Do) (or_intror Do') Lo3) as [Ko Po].
    assert (FP (k_getOutput k i' o') pi po) as HF by (apply Fq; congruence).
    assert (HM : made_by tr o' i') by (destruct HM0 as [E | [E M]]; [left; exact E|right; split; [exact E|rewrite <- Ko, <- Ki; exact M]]).
    unfold buildPassDependencies.
    match goal with |- context [{| b_all := []; b_in := ?x; b_out := ?y; b_cache := [] |}] => set (s0 := {| b_all := []; b_in := x; b_out := y; b_cache := [] |}) end.
    assert (S0 : sok s0).
    { assert (N0 : Forall (fun e : N * list (transition D) => Forall okt (snd e)) (map (fun p => (d_id p, [])) nodes)).
      { apply Forall_forall. intros e He. apply in_map_iff in He. destruct He as (p & <- & _). constructor. }
      split; [constructor|split; [exact N0|split; [exact N0|exact HI]]]. }
    assert (C : ssok (fold_left (fun s o => fold_left (fun s i => buildGroupDependencies k w i o s) ins s) outs (all, s0)) /\
                tcov tr o' i' (snd (fold_left (fun s o => fold_left (fun s i => buildGroupDependencies k w i o s) ins s) outs (all, s0)))).
    { split; [apply (builds_ok ins outs (all, s0) G1 G2 (conj G3 S0))|].
      apply (fold_left_hit ssok (fun s => tcov tr o' i' (snd s)) _ outs _ Lo1); [| | |split; assumption].
      - intros s1 [d l] H1 S1. apply (fold_left_inv ssok _ ins); [|exact S1]. intros s2 [d' l'] H2 S2.
        apply (buildGroup_ok (d', l') (d, l) s2); [apply (G1 d' l' H2)|apply (G2 d l H1)|exact S2].
      - intros s1 S1. apply (fold_left_hit ssok (fun s => tcov tr o' i' (snd s)) _ ins _ Li1); [| | |exact S1].
        + intros s2 [d' l'] H2 S2. apply (buildGroup_ok (d', l') (k_get k o, lo) s2); [apply (G1 d' l' H2)|apply (G2 _ _ Lo1)|exact S2].
        + intros s2 S2. apply (buildGroup_covers tr (k_get k i, li) (k_get k o, lo) s2 i' o' pi po); [apply (G1 _ _ Li1)|apply (G2 _ _ Lo1)|exact S2|exact Hov|exact Li2|exact Lo2| | |exact HF|exact HM]; congruence.
        + intros s2 [d' l'] H2 S2 C2. destruct (buildGroup_ok (d', l') (k_get k o, lo) s2) as [_ K]; [apply (G1 d' l' H2)|apply (G2 _ _ Lo1)|exact S2|].
          apply (keeps_covered _ (snd s2)); assumption.
      - intros s1 [d l] H1 S1 C1. destruct (builds_ok ins [(d, l)] s1 G1) as [_ K]; [intros d0 l0 [E|[]]; injection E as <- <-; apply (G2 d l H1)|exact S1|].
        cbn in K. apply (keeps_covered _ (snd s1)); assumption. }
    match goal with |- context [fold_left ?f outs (all, s0)] => destruct (fold_left f outs (all, s0)) as [all' s1] end.
    destruct C as [[G1' S1'] C]. cbn [fst snd] in G1', S1', C. destruct (remaining_ok all' s1 G1' S1') as [_ K]. cbn in K.
    intro S3. apply (keeps_covered _ _ _ K) in C. destruct C as (x & Hx & Ex).
    exists x, o', i'. split; [exact Hx|].
    assert (Et : t_out (tr o' i') = o' /\ t_in (tr o' i') = i' /\ (t_data (tr o' i') = k_get k i \/ t_data (tr o' i') = k_get k o)).
    { destruct HM as [E | [E _]]; rewrite E; cbn [input_transition output_transition t_out t_in t_data]; (split; [reflexivity|]; split; [reflexivity|]).
      - destruct (Hgi o' i') as [-> | ->]; [right|left]; congruence.
      - destruct (Hgo o' i') as [-> | ->]; [right|left]; congruence. }
    destruct Et as (Eto & Eti & Etd).
    destruct Ex as [->|Ex].
    - rewrite Eto, Eti. split; [congruence|]. split; [congruence|]. split; [exact Etd|]. split; [congruence|]. split; [congruence|]. left. reflexivity.
    - unfold trans_eqb in Ex. rewrite Eto, Eti, !andb_true_iff in Ex. destruct Ex as (E0 & E1 & E2).
      destruct S3 as [S3 _]. rewrite Forall_forall in S3. destruct (S3 x Hx) as [_ Hok].
      assert (P1 : at_pass (t_out x) = at_pass o'). { unfold attach_eqb in E1. apply andb_true_iff in E1. destruct E1 as [E1 _]. apply andb_true_iff in E1. destruct E1 as [E1 _].
        destruct (at_pass (t_out x)), (at_pass o'); cbn in E1; try discriminate; [apply N.eqb_eq in E1; congruence|reflexivity]. }
      assert (P2 : at_pass (t_in x) = at_pass i'). { unfold attach_eqb in E2. apply andb_true_iff in E2. destruct E2 as [E2 _]. apply andb_true_iff in E2. destruct E2 as [E2 _].
        destruct (at_pass (t_in x)), (at_pass i'); cbn in E2; try discriminate; [apply N.eqb_eq in E2; congruence|reflexivity]. }
      split; [congruence|]. split; [congruence|]. split; [|split; [congruence|]; split; [congruence|]; right; exact E0]. destruct Hok as [(O1 & O2 & Od)|[[O _]|[O _]]]; [|congruence|congruence].
      destruct (Haeq _ o' (or_intror O1) (or_intror Do') E1) as [V1 _]. destruct (Haeq _ i' (or_introl O2) (or_introl Di') E2) as [V2 _].
      destruct Od as [-> | ->]; [right|left]; congruence.
  Qed.
  Lemma all_covers nodes i o pi po : incl nodes w -> Inv [] ->
    (exists p, In p nodes /\ In i (att p) /\ k_isInput k i = true) -> (exists p, In p nodes /\ In o (att p) /\ k_isOutput k o = true) ->
    k_overlap k (k_get k i) (k_get k o) = true -> at_pass i = Some pi -> at_pass o = Some po ->
    FP (k_get k i) pi po -> FP (k_get k o) pi po ->
    exists x, In x (b_all (allTransitions k w att nodes)) /\ at_pass (t_in x) = Some pi /\ at_pass (t_out x) = Some po /\
              (t_data x = k_get k i \/ t_data x = k_get k o).
  Proof.
    intros Hn HI Qi Qo Hov Ei Eo Fi Fo.
    destruct (all_covers_by (input_transition k) nodes i o pi po Hn HI Qi Qo Hov Ei Eo) as (x & o' & i' & H1 & H2 & H3 & H4 & _).
    - intros i' o' E E'. destruct (Hgo i' o') as [-> | ->]; [rewrite E|rewrite E']; assumption.
    - left. reflexivity.
    - exists x. auto.
  Qed.

  (* Attachments taking part in no dependency (C53) *)
  Definition known (x : transition D) : Prop :=
    (at_pass (t_out x) <> None /\ at_pass (t_in x) <> None) \/ exists a, either a /\ x = remaining_transition k a.
  Definition known_in (s : bstate (D := D)) : Prop :=
    Forall known (b_all s) /\ forall q x, In x (trans_of q (b_in s)) -> known x /\ (at_pass (t_in x) = Some q \/ at_pass (t_in x) = None).
  Definition listed (a : attach) (s : bstate (D := D)) : Prop := exists a', either a' /\ attach_eqb a' a = true /\ In (remaining_transition k a') (b_all s).
  Lemma listed_keeps a s s' : keeps s s' -> listed a s -> listed a s'.
  Proof. intros K (a' & H1 & H2 & H3). exists a'. auto. Qed.
  Lemma trans_of_set_same p t (l : ptrans (D := D)) : trans_of p (set_trans p t l) = t.
  Proof.
    induction l as [|[q u] l IH]; cbn; [unfold trans_of; cbn; rewrite N.eqb_refl; reflexivity|]. destruct (N.eqb_spec q p) as [E|E].
    - unfold trans_of. cbn. subst q. rewrite N.eqb_refl. reflexivity.
    - unfold trans_of in *. cbn. destruct (N.eqb_spec q p); [congruence|]. exact IH.
  Qed.
  Lemma trans_of_set_other p q t (l : ptrans (D := D)) : q <> p -> trans_of q (set_trans p t l) = trans_of q l.
  Proof.
    intro N0. induction l as [|[r u] l IH]; cbn.
    - unfold trans_of. cbn. destruct (N.eqb_spec p q); [congruence|reflexivity].
    - destruct (N.eqb_spec r p) as [E|E].
      + subst r. unfold trans_of. cbn. destruct (N.eqb_spec p q); [congruence|reflexivity].
      + unfold trans_of in *. cbn. destruct (N.eqb_spec r q); [reflexivity|exact IH].
  Qed.
  Lemma insertTransition_in t l c l' c' x : Forall okt l -> Inv c -> insertTransition k w t (l, c) = (l', c') -> In x l' -> x = t \/ In x l.
  Proof.
    intros Hl Hc H Hx. unfold insertTransition in H. destruct (hasTransition k l t).
    - injection H as <- <-. right. exact Hx.
    - destruct (insert_first k w t l c) as [[l1|] c1] eqn:E1; destruct (insert_first_ok t l c _ c1 Hl Hc E1) as [Hc1 Hin].
      + injection H as <- <-. apply (Hin l1 eq_refl). exact Hx.
      + injection H as <- <-. apply in_app_or in Hx. destruct Hx as [Hx|[<-|[]]]; auto.
  Qed.
  Lemma insert_all_known t s : known t -> sok s -> known_in s -> known_in (insert_all k w t s).
  Proof.
    intros Ht (H1 & _ & _ & H4) [K1 K2]. unfold insert_all. destruct (insertTransition k w t (b_all s, b_cache s)) as [l c] eqn:E. split; cbn; [|exact K2].
    apply Forall_forall. intros x Hx. destruct (insertTransition_in t _ _ l c x H1 H4 E Hx) as [->|Hx']; [exact Ht|]. rewrite Forall_forall in K1. apply K1. exact Hx'.
  Qed.
  Lemma insert_in_known p t s : known t -> (at_pass (t_in t) = Some p \/ at_pass (t_in t) = None) -> sok s -> known_in s -> known_in (insert_in k w p t s).
  Proof.
    intros Ht Hp (H1 & H2 & _ & H4) [K1 K2]. unfold insert_in. destruct (insertTransition k w t (trans_of p (b_in s), b_cache s)) as [l c] eqn:E. split; cbn; [exact K1|].
    intros q x. destruct (N.eq_dec q p) as [->|Nq].
    - rewrite trans_of_set_same. intro Hx. destruct (insertTransition_in t _ _ l c x (trans_of_ok p _ H2) H4 E Hx) as [->|Hx']; [auto|]. apply K2. exact Hx'.
    - rewrite trans_of_set_other by exact Nq. apply K2.
  Qed.
  Lemma insert_out_known p t s : known_in s -> known_in (insert_out k w p t s).
  Proof. intros [K1 K2]. unfold insert_out. destruct (insertTransition k w t (trans_of p (b_out s), b_cache s)) as [l c]. split; assumption. Qed.
  Lemma addDependency_known i o s : dout o -> din i -> sok s -> known_in s ->
    forall pi po, at_pass i = Some pi -> at_pass o = Some po -> known_in (addDependency k w pi po o i s).
  Proof.
    intros Ho Hi Hs Ks pi po Ei Eo. unfold addDependency. pose proof (okt_input o i Ho Hi) as Ti. pose proof (okt_output o i Ho Hi) as To.
    assert (Ki : known (input_transition k o i)) by (left; cbn; split; congruence).
    assert (Ko : known (output_transition k o i)) by (left; cbn; split; congruence).
    destruct (insert_all_ok _ s Ti Hs) as (S1 & _ & _). pose proof (insert_all_known _ s Ki Hs Ks) as K1. set (s1 := insert_all k w (input_transition k o i) s) in *.
    set (s2 := if k_match k (k_get k o) (k_get k i) then s1 else insert_all k w (output_transition k o i) s1).
    assert (S2 : sok s2 /\ known_in s2).
    { unfold s2. destruct (k_match _ _ _); [auto|]. destruct (insert_all_ok _ s1 To S1) as (S2 & _). split; [exact S2|]. apply insert_all_known; assumption. }
    apply insert_out_known. apply insert_in_known; [exact Ki|left; exact Ei|apply S2|apply S2].
  Qed.
  Lemma buildPassDependency_known i o s : dout o -> din i -> sok s -> known_in s -> known_in (buildPassDependency k w i o s).
  Proof.
    intros Ho Hi Hs Ks. unfold buildPassDependency. assert (Hi' := Hi). assert (Ho' := Ho). destruct Hi as (pi & Hpi & Hai & Hki). destruct Ho as (po & Hpo & Hao & Hko).
    rewrite (Hpass pi i Hpi Hai), (Hpass po o Hpo Hao).
    destruct (Hq (d_id pi) (d_id po) (k_getOutput k i o) (b_cache s)) as (b & c & -> & Hb & Hc).
    - apply in_map; exact Hpo.
    - destruct (Hgo i o) as [-> | ->]; apply HU; [left; exact Hi'|right; exact Ho'].
    - apply Hs.
    - destruct b; [|exact Ks]. apply addDependency_known; [exact Ho'|exact Hi'| |exact Ks|apply (Hpass pi i Hpi Hai)|apply (Hpass po o Hpo Hao)].
      destruct Hs as (A & B & C & F). split; [exact A|split; [exact B|split; [exact C|exact Hc]]].
  Qed.
  (* [p] receives nothing *)
  Context (p : dpass) (Hp : In p w).
  Hypothesis Hnone : forall t o, okt t -> at_pass (t_out t) = Some o -> at_pass (t_in t) = Some (d_id p) -> ~ FP (t_data t) (d_id p) o.
  Definition listed_p (s : bstate (D := D)) : Prop :=
    forall x, In x (trans_of (d_id p) (b_in s)) -> exists a, either a /\ x = remaining_transition k a /\ listed a s.
  Definition okp (s : bstate (D := D)) : Prop := sok s /\ known_in s /\ listed_p s.
  Lemma rem_ext a : at_pass (t_out (remaining_transition k a)) = None \/ at_pass (t_in (remaining_transition k a)) = None.
  Proof. unfold remaining_transition. destruct (k_remaining_input k a); cbn; rewrite Hdef; auto. Qed.
  Lemma rem_query a c : t_dependsOn k w (remaining_transition k a) c = (false, c).
  Proof. unfold t_dependsOn. destruct (rem_ext a) as [-> | ->]; [destruct (at_pass (t_in _)); reflexivity|reflexivity]. Qed.
  Lemma either_pass a : either a -> at_pass a <> None.
  Proof. intros [(q & Hq0 & Ha & _)|(q & Hq0 & Ha & _)]; rewrite (Hpass q a Hq0 Ha); discriminate. Qed.
  Lemma attach_eqb_pass a b : attach_eqb a b = true -> at_pass a = at_pass b.
  Proof.
    unfold attach_eqb. rewrite !andb_true_iff. intros [[E _] _]. destruct (at_pass a), (at_pass b); cbn in E; try discriminate; [|reflexivity].
    apply N.eqb_eq in E. congruence.
  Qed.
  Lemma rem_eqb x a : known x -> either a -> trans_eqb k x (remaining_transition k a) = true ->
    exists a', either a' /\ x = remaining_transition k a' /\ attach_eqb a' a = true.
  Proof.
    intros Kx Ha E. unfold trans_eqb in E. rewrite !andb_true_iff in E. destruct E as (_ & E1 & E2).
    apply attach_eqb_pass in E1 as P1. apply attach_eqb_pass in E2 as P2. destruct Kx as [[K1 K2]|(a' & Ha' & ->)].
    - exfalso. destruct (rem_ext a) as [X|X]; [apply K1|apply K2]; congruence.
    - exists a'. split; [exact Ha'|]. split; [reflexivity|]. pose proof (either_pass a Ha) as Na. pose proof (either_pass a' Ha') as Na'.
      unfold remaining_transition in E1, E2, P1, P2. destruct (k_remaining_input k a'), (k_remaining_input k a); cbn in *; try assumption; rewrite ?Hdef in *; congruence.
  Qed.
  Lemma quiet_first t l : forall c, (forall x, In x l -> forall c, exists c', t_dependsOn k w x c = (false, c')) -> exists c', insert_first k w t l c = (None, c').
  Proof.
    induction l as [|x l IH]; intros c H; cbn; [exists c; reflexivity|]. destruct (H x (or_introl eq_refl) c) as [c1 ->].
    destruct (IH c1) as [c2 ->]; [intros; apply H; right; assumption|]. exists c2. reflexivity.
  Qed.
  Lemma addRemaining_lists a s : either a -> okp s -> okp (addRemainingDependency k w a s) /\ (at_pass a = Some (d_id p) -> listed a (addRemainingDependency k w a s)).
  Proof.
    intros Ha (Hs & Ks & Ls). unfold addRemainingDependency. destruct (at_pass a) as [q|] eqn:Eq; [|split; [split; [exact Hs|split; assumption]|discriminate]].
    pose proof (okt_remaining a Ha) as T. destruct (insert_in_ok q _ s T Hs) as [S1 E1].
    assert (KT : known (remaining_transition k a)) by (right; exists a; auto).
    assert (PT : at_pass (t_in (remaining_transition k a)) = Some q \/ at_pass (t_in (remaining_transition k a)) = None).
    { unfold remaining_transition. destruct (k_remaining_input k a); cbn; [left; exact Eq|right; apply Hdef]. }
    pose proof (insert_in_known q _ s KT PT Hs Ks) as K1.
    destruct (N.eq_dec q (d_id p)) as [->|Nq].
    - (* a pass receiving nothing: inserted at the end *)
      assert (L1 : trans_of (d_id p) (b_in (insert_in k w (d_id p) (remaining_transition k a) s)) = trans_of (d_id p) (b_in s) /\ (exists x, In x (trans_of (d_id p) (b_in s)) /\ trans_eqb k x (remaining_transition k a) = true)
                   \/ trans_of (d_id p) (b_in (insert_in k w (d_id p) (remaining_transition k a) s)) = trans_of (d_id p) (b_in s) ++ [remaining_transition k a]).
      { unfold insert_in, insertTransition. destruct (hasTransition k (trans_of (d_id p) (b_in s)) (remaining_transition k a)) eqn:Eh.
        - left. cbn. rewrite trans_of_set_same. split; [reflexivity|]. unfold hasTransition in Eh. apply existsb_exists in Eh. exact Eh.
        - right. destruct (quiet_first (remaining_transition k a) (trans_of (d_id p) (b_in s)) (b_cache s)) as [c1 ->].
          { intros x Hx c. destruct (Ls x Hx) as (a' & _ & -> & _). exists c. apply rem_query. }
          cbn. apply trans_of_set_same. }
      set (s1 := insert_in k w (d_id p) (remaining_transition k a) s) in *.
      set (t := last (trans_of (d_id p) (b_in s1)) (remaining_transition k a)).
      assert (Lt : exists a', either a' /\ t = remaining_transition k a').
      { unfold t. destruct L1 as [[-> (x & Hx & _)]| ->].
        - destruct (Ls (last (trans_of (d_id p) (b_in s)) (remaining_transition k a))) as (a' & A1 & A2 & _); [|exists a'; auto]. apply last_in. intro E. rewrite E in Hx. destruct Hx.
        - exists a. rewrite last_last. auto. }
      destruct Lt as (at_ & Hat & Et).
      destruct (insert_all_ok t s1) as (S2 & K2 & C2); [rewrite Et; apply okt_remaining; exact Hat|exact S1|].
      pose proof (insert_all_known t s1 ltac:(right; exists at_; auto) S1 K1) as Ks2.
      set (s2 := insert_all k w t s1) in *.
      assert (KK : keeps s s2) by (intros x Hx; apply K2; rewrite E1; exact Hx).
      assert (B2 : b_in s2 = b_in s1) by (unfold s2, insert_all; destruct (insertTransition k w t (b_all s1, b_cache s1)); reflexivity).
      assert (La : listed a s2).
      { destruct L1 as [[_ (x & Hx & Ex)]|L1].
        - destruct (Ls x Hx) as (a' & A1 & A2 & A3). destruct (rem_eqb x a) as (a'' & B1 & B3 & B4); [right; exists a'; auto|exact Ha|exact Ex|].
          apply (listed_keeps a s s2 KK). destruct A3 as (b & D1 & D2 & D3). exists b. split; [exact D1|]. split; [|exact D3].
          (* b = a' (as attachments), rem a' = rem a'', a'' = a *)
          assert (Eaa : attach_eqb a' a = true).
          { rewrite A2 in Ex. destruct (rem_eqb (remaining_transition k a') a) as (z & Z1 & Z2 & Z3); [right; exists a'; auto|exact Ha|exact Ex|].
            enough (a' = z) by congruence. pose proof (either_pass a' A1) as N1. pose proof (either_pass z Z1) as N2.
            unfold remaining_transition in Z2. destruct (k_remaining_input k a'), (k_remaining_input k z); injection Z2 as Y1 Y2 Y3; try assumption; exfalso.
            - apply N1. rewrite Y3. apply Hdef.
            - apply N1. rewrite Y2. apply Hdef. }
          apply (attach_eqb_trans b a' a); assumption.
        - assert (Et' : t = remaining_transition k a) by (unfold t; rewrite L1; apply last_last).
          destruct C2 as (x & Hx & [Ex|Ex]).
          + exists a. split; [exact Ha|]. split; [apply Haeq_refl|]. rewrite <- Et', <- Ex. exact Hx.
          + rewrite Et' in Ex. destruct Ks2 as [Ka _]. rewrite Forall_forall in Ka. destruct (rem_eqb x a (Ka x Hx) Ha Ex) as (a' & A1 & A2 & A3).
            exists a'. split; [exact A1|]. split; [exact A3|]. rewrite <- A2. exact Hx. }
      split; [|intros _; exact La]. split; [exact S2|]. split; [exact Ks2|].
      intros x Hx. rewrite B2 in Hx. destruct L1 as [[L1 _]|L1]; rewrite L1 in Hx.
      + destruct (Ls x Hx) as (a' & A1 & A2 & A3). exists a'. split; [exact A1|]. split; [exact A2|]. apply (listed_keeps a' s s2 KK A3).
      + apply in_app_or in Hx. destruct Hx as [Hx|[<-|[]]].
        * destruct (Ls x Hx) as (a' & A1 & A2 & A3). exists a'. split; [exact A1|]. split; [exact A2|]. apply (listed_keeps a' s s2 KK A3).
        * exists a. auto.
    - (* another pass *)
      set (s1 := insert_in k w q (remaining_transition k a) s) in *.
      set (t := last (trans_of q (b_in s1)) (remaining_transition k a)).
      assert (Kt : known t /\ okt t).
      { unfold t. destruct (trans_of q (b_in s1)) as [|x l] eqn:El; [split; [exact KT|exact T]|].
        assert (Hl : In (last (x :: l) (remaining_transition k a)) (trans_of q (b_in s1))) by (rewrite El; apply last_in; discriminate). rewrite <- El in Hl |- *. split; [apply K1 in Hl; apply Hl|].
        pose proof (trans_of_ok q (b_in s1)) as F. destruct S1 as (_ & S1 & _). specialize (F S1). rewrite Forall_forall in F. apply F. exact Hl. }
      destruct (insert_all_ok t s1 (proj2 Kt) S1) as (S2 & K2 & _).
      pose proof (insert_all_known t s1 (proj1 Kt) S1 K1) as Ks2. set (s2 := insert_all k w t s1) in *.
      assert (KK : keeps s s2) by (intros x Hx; apply K2; rewrite E1; exact Hx).
      assert (B2 : b_in s2 = b_in s1) by (unfold s2, insert_all; destruct (insertTransition k w t (b_all s1, b_cache s1)); reflexivity).
      split; [|intro E; congruence]. split; [exact S2|]. split; [exact Ks2|].
      intros x Hx. rewrite B2 in Hx. unfold s1, insert_in in Hx. destruct (insertTransition k w _ _) as [l c]. cbn in Hx. rewrite trans_of_set_other in Hx by congruence.
      destruct (Ls x Hx) as (a' & A1 & A2 & A3). exists a'. split; [exact A1|]. split; [exact A2|]. apply (listed_keeps a' s s2 KK A3).
  Qed.

  Lemma buildPassDependency_okp i o s : dout o -> din i -> okp s -> okp (buildPassDependency k w i o s).
  Proof.
    intros Ho Hi (Hs & Ks & Ls). destruct (buildPassDependency_ok i o s Ho Hi Hs) as (S1 & K1 & _). pose proof (buildPassDependency_known i o s Ho Hi Hs Ks) as N1.
    split; [exact S1|]. split; [exact N1|].
    assert (E : trans_of (d_id p) (b_in (buildPassDependency k w i o s)) = trans_of (d_id p) (b_in s)).
    { unfold buildPassDependency. assert (Hi' := Hi). assert (Ho' := Ho). destruct Hi as (pi & Hpi & Hai & Hki). destruct Ho as (po & Hpo & Hao & Hko).
      rewrite (Hpass pi i Hpi Hai), (Hpass po o Hpo Hao).
      destruct (Hq (d_id pi) (d_id po) (k_getOutput k i o) (b_cache s)) as (b & c & -> & Hb & Hc).
      - apply in_map; exact Hpo.
      - destruct (Hgo i o) as [-> | ->]; apply HU; [left; exact Hi'|right; exact Ho'].
      - apply Hs.
      - destruct b; [|reflexivity]. destruct (N.eq_dec (d_id pi) (d_id p)) as [E|E].
        + exfalso. apply (Hnone {| t_data := k_getOutput k i o; t_out := o; t_in := i |} (d_id po)); cbn.
          * split; cbn; [destruct (Hgo i o) as [-> | ->]; apply HU; auto|]. left. repeat split; auto. destruct (Hgo i o); auto.
          * apply (Hpass po o Hpo Hao).
          * rewrite (Hpass pi i Hpi Hai). congruence.
          * rewrite <- E. apply Hb. reflexivity.
        + unfold addDependency, insert_out, insert_in, insert_all. destruct (k_match k (k_get k o) (k_get k i));
            repeat match goal with |- context [let '(_, _) := ?x in _] => destruct x end; cbn; rewrite trans_of_set_other by congruence; reflexivity. }
    intros x Hx. rewrite E in Hx. destruct (Ls x Hx) as (a & A1 & A2 & A3). exists a. split; [exact A1|]. split; [exact A2|]. apply (listed_keeps a s _ K1 A3).
  Qed.
  (* The data of the groups are those of their attachments *)
  Definition gdata (P : attach -> Prop) (g : list (group D)) : Prop := forall d l, In (d, l) g -> exists a, P a /\ k_get k a = d.
  Lemma insertAttach_data (P : attach -> Prop) a g : P a -> gdata P g -> gdata P (insertAttach k a g).
  Proof.
    intros Ha. induction g as [|[d l] g IH]; intro H; cbn.
    - intros d l [E|[]]. injection E as <- <-. exists a. auto.
    - destruct (k_eq k d (k_get k a)); intros d' l' [E|E].
      + injection E as <- <-. apply (H d l). left. reflexivity.
      + apply (H d' l'). right. exact E.
      + injection E as <- <-. apply (H d l). left. reflexivity.
      + apply (IH (fun d0 l0 H0 => H d0 l0 (or_intror H0)) d' l' E).
  Qed.
  Lemma processSource_data (P : attach -> Prop) a g : gdata P g -> gdata P (map (processAttachSource k a) g).
  Proof.
    intros H d l Hd. apply in_map_iff in Hd. destruct Hd as ([d0 l0] & E & H0). unfold processAttachSource in E. cbn in E.
    destruct (k_overlap _ _ _); injection E as <- <-; apply (H d0 l0 H0).
  Qed.
  Lemma processAttachs_data (P : attach -> Prop) sel l g all : (forall a, In a l -> sel a = true -> P a) -> gdata P g -> gdata P (fst (processAttachs k sel l (g, all))).
  Proof.
    intros Hl Hg. unfold processAttachs. apply (fold_left_inv (fun s => gdata P (fst s)) _ l); [|exact Hg].
    intros [c al] x Hx H1. destruct (sel x) eqn:E; [|exact H1]. unfold processAttach.
    apply (fold_left_inv (fun s => gdata P (fst s)) _ (k_split k x)); [|exact H1].
    intros [c' al'] y Hy H2. apply Hsplit in Hy. subst y. cbn in *. apply insertAttach_data; [apply Hl; assumption|]. apply processSource_data. exact H2.
  Qed.
  Lemma holds_all_process a b s : holds a (snd s) -> holds a (snd (processAttach k b s)).
  Proof.
    intro H. unfold processAttach. apply (fold_left_inv (fun s => holds a (snd s)) _ (k_split k b)); [|exact H].
    intros [c al] x _ H0. cbn in *. apply holds_insert_other. exact H0.
  Qed.
  Lemma holds_all_same a s : either a -> gok either (snd s) -> holds a (snd (processAttach k a s)).
  Proof.
    intros Ha Hg. unfold processAttach. pose proof (Hself a) as Hin. revert s Hg.
    assert (Hs : forall x, In x (k_split k a) -> x = a) by (intros x Hx; apply Hsplit; exact Hx). revert Hs Hin.
    generalize (k_split k a) as l. intros [|x l] Hs Hin [c al] Hg; [destruct Hin|]. cbn.
    assert (x = a) by (apply Hs; left; reflexivity). subst x. cbn in Hg.
    apply (fold_left_inv (fun s => holds a (snd s)) _ l).
    - intros [c' al'] x _ H0. cbn in *. apply holds_insert_other. exact H0.
    - cbn. apply (holds_insert_same either); assumption.
  Qed.
  Lemma holds_all_processs a sel l s : holds a (snd s) -> holds a (snd (processAttachs k sel l s)).
  Proof.
    intro H. unfold processAttachs. apply (fold_left_inv (fun s => holds a (snd s)) _ l); [|exact H].
    intros s' x _ H0. destruct (sel x); [apply holds_all_process; exact H0|exact H0].
  Qed.
  Lemma holds_all_processs_same (P : attach -> Prop) a sel l g all : In a l -> sel a = true -> (forall a, In a l -> sel a = true -> P a) -> (forall x, P x -> either x) ->
    gok P g -> gok either all -> holds a (snd (processAttachs k sel l (g, all))).
  Proof.
    intros Hin Hs Hl Hi Hg Hall. unfold processAttachs. revert g all Hg Hall. induction l as [|x l IH]; intros g all Hg Hall; [destruct Hin|]. cbn.
    destruct Hin as [->|Hin].
    - rewrite Hs. apply (holds_all_processs a sel l). apply holds_all_same; [|exact Hall]. apply Hi, Hl; [left; reflexivity|exact Hs].
    - assert (Hl' : forall a, In a l -> sel a = true -> P a) by (intros; apply Hl; [right; assumption|assumption]).
      destruct (sel x) eqn:E; [|apply IH; assumption].
      destruct (processAttach_ok P x g all) as [G1 G2]; auto. { apply Hl; [left; reflexivity|exact E]. }
      destruct (processAttach k x (g, all)) as [g' all']. apply IH; assumption.
  Qed.
  Lemma groups_hold_all nodes q a : incl nodes w -> In q nodes -> In a (att q) -> (k_isInput k a = true \/ k_isOutput k a = true) ->
    let '(i, o, all) := attachGroups k att nodes in holds a all /\ gdata din i /\ gdata dout o.
  Proof.
    intros Hn Hqn Ha Hsel. unfold attachGroups.
    assert (G0 : (gok din [] /\ gok dout [] /\ gok either []) /\ gdata din [] /\ gdata dout []) by (repeat split; intros; match goal with H : In _ [] |- _ => destruct H | |- _ => intros ? ? [] end).
    revert G0. generalize (@nil (group D)) at 1 4 6 as gi. generalize (@nil (group D)) at 1 3 4 as go. generalize (@nil (group D)) as ga.
    revert Hn Hqn. induction nodes as [|r nodes IH]; intros Hn Hqn ga go gi ((H1 & H2 & H3) & D1 & D2); [destruct Hqn|]. cbn [fold_left].
    assert (Hrw : In r w) by (apply Hn; left; reflexivity).
    assert (Ti : forall x, In x (att r) -> k_isInput k x = true -> din x) by (intros x Hx Hx'; exists r; auto).
    assert (To : forall x, In x (att r) -> k_isOutput k x = true -> dout x) by (intros x Hx Hx'; exists r; auto).
    pose proof (processAttachs_ok din (k_isInput k) (att r) gi ga Ti (fun x Hx => or_introl Hx) H1 H3) as A.
    pose proof (processAttachs_data din (k_isInput k) (att r) gi ga Ti D1) as A'.
    pose proof (holds_all_processs_same din a (k_isInput k) (att r) gi ga) as Aa.
    destruct (processAttachs k (k_isInput k) (att r) (gi, ga)) as [i' a'].
    cbn in A, A', Aa. destruct A as [A1 A2].
    pose proof (processAttachs_ok dout (k_isOutput k) (att r) go a' To (fun x Hx => or_intror Hx) H2 A2) as B.
    pose proof (processAttachs_data dout (k_isOutput k) (att r) go a' To D2) as B'.
    pose proof (holds_all_processs_same dout a (k_isOutput k) (att r) go a') as Bb.
    pose proof (holds_all_processs a (k_isOutput k) (att r) (go, a')) as Bk.
    destruct (processAttachs k (k_isOutput k) (att r) (go, a')) as [o' a''].
    cbn in B, B', Bb, Bk. destruct B as [B1 B2].
    assert (Hn' : incl nodes w) by (intros x Hx; apply Hn; right; exact Hx).
    destruct Hqn as [->|Hqn].
    - assert (Hh : holds a a'').
      { destruct Hsel as [Hsel|Hsel]; [apply Bk; apply Aa; auto|apply Bb; auto]; intros x Hx; [left|right]; exact Hx. }
      clear IH Aa Bb Bk. revert i' o' a'' A' A1 B' B1 B2 Hh. clear -Hn' Hsplit HU. induction nodes as [|r nodes IH]; intros i' o' a'' A' A1 B' B1 B2 Hh; cbn [fold_left]; [auto|].
      assert (Hrw : In r w) by (apply Hn'; left; reflexivity).
      assert (Ti : forall x, In x (att r) -> k_isInput k x = true -> din x) by (intros x Hx Hx'; exists r; auto).
      assert (To : forall x, In x (att r) -> k_isOutput k x = true -> dout x) by (intros x Hx Hx'; exists r; auto).
      pose proof (processAttachs_ok din (k_isInput k) (att r) i' a'' Ti (fun x Hx => or_introl Hx) A1 B2) as A.
      pose proof (processAttachs_data din (k_isInput k) (att r) i' a'' Ti A') as Ad.
      pose proof (holds_all_processs a (k_isInput k) (att r) (i', a'') Hh) as Ah.
      destruct (processAttachs k (k_isInput k) (att r) (i', a'')) as [i2 a2]. cbn in A, Ad, Ah. destruct A as [A3 A4].
      pose proof (processAttachs_ok dout (k_isOutput k) (att r) o' a2 To (fun x Hx => or_intror Hx) B1 A4) as B.
      pose proof (processAttachs_data dout (k_isOutput k) (att r) o' a2 To B') as Bd.
      pose proof (holds_all_processs a (k_isOutput k) (att r) (o', a2) Ah) as Bh.
      destruct (processAttachs k (k_isOutput k) (att r) (o', a2)) as [o2 a3]. cbn in B, Bd, Bh. destruct B as [B3 B4].
      apply IH; auto. intros x Hx. apply Hn'. right. exact Hx.
    - apply IH; auto.
  Qed.
  (* the group is not taken out *)
  Lemma holds_erase a d all : k_eq k (k_get k a) d = false -> holds a all -> holds a (erase_data k d all).
  Proof.
    intros E (l & a' & H1 & H2). induction all as [|g all IH]; [destruct H1|]. cbn. destruct (k_eq k (fst g) d) eqn:Eg.
    - destruct H1 as [->|H1]; [cbn in Eg; congruence|]. exists l, a'. auto.
    - destruct H1 as [->|H1]; [exists l, a'; split; [left; reflexivity|exact H2]|]. destruct (IH H1) as (l' & a'' & X1 & X2). exists l', a''. split; [right; exact X1|exact X2].
  Qed.
  Lemma lonely_listed a : Inv [] -> In a (att p) -> (k_isInput k a = true \/ k_isOutput k a = true) ->
    (forall i o, din i -> dout o -> k_get k i = k_get k a -> k_overlap k (k_get k i) (k_get k o) = false) ->
    listed a (allTransitions k w att w).
  Proof.
    intros HI Ha Hsel Hlone. unfold allTransitions. pose proof (attachGroups_ok w (incl_refl w)) as G. pose proof (groups_hold_all w p a (incl_refl w) Hp Ha Hsel) as GH.
    destruct (attachGroups k att w) as [[gi go] all]. destruct G as (Gi & Go & Ga). destruct GH as (Hh & Di & Do). unfold buildPassDependencies.
    assert (Ea : either a) by (destruct Hsel; [left|right]; exists p; auto).
    set (s0 := {| b_all := []; b_in := map (fun p => (d_id p, [])) w; b_out := map (fun p => (d_id p, [])) w; b_cache := [] |} : bstate (D := D)).
    assert (N0 : Forall (fun e : N * list (transition D) => Forall okt (snd e)) (map (fun p => (d_id p, [])) w)).
    { apply Forall_forall. intros e He. apply in_map_iff in He. destruct He as (q & <- & _). constructor. }
    assert (T0 : forall q, trans_of q (b_in s0) = []).
    { intro q. unfold trans_of. destruct (find _ (b_in s0)) as [[r t]|] eqn:E; [|reflexivity]. apply find_some in E. destruct E as [E _].
      apply in_map_iff in E. destruct E as (q0 & E & _). congruence. }
    assert (S0 : okp s0).
    { split; [split; [constructor|split; [exact N0|split; [exact N0|exact HI]]]|]. split; [split; [constructor|]|]; [intros q x Hx|intros x Hx]; rewrite T0 in Hx; destruct Hx. }
    assert (P1 : forall o, In o go -> forall i, In i gi -> forall s, gok either (fst s) -> okp (snd s) -> holds a (fst s) ->
      gok either (fst (buildGroupDependencies k w i o s)) /\ okp (snd (buildGroupDependencies k w i o s)) /\ holds a (fst (buildGroupDependencies k w i o s))).
    { intros [od ol] Hgo' [id_ il] Hgi' [al s] G1 O1 H1. unfold buildGroupDependencies. cbn [fst snd] in *. destruct (k_overlap k id_ od) eqn:Eov; [|auto]. cbn [fst snd].
      destruct (Gi id_ il Hgi') as [Ui Ii]. destruct (Go od ol Hgo') as [_ Io]. split; [|split].
      - intros d l Hd. apply erase_incl in Hd. apply (G1 d l Hd).
      - apply (fold_left_inv okp _ ol); [|exact O1]. intros s1 o Ho O2. apply (fold_left_inv okp _ il); [|exact O2]. intros s2 i Hi O3. apply buildPassDependency_okp; auto.
      - apply holds_erase; [|exact H1]. destruct (k_eq k (k_get k a) id_) eqn:E; [|reflexivity]. exfalso.
        apply Hkeq in E; [|apply HU; exact Ea|exact Ui]. destruct (Di id_ il Hgi') as (i & I1 & I2). destruct (Do od ol Hgo') as (o & O2 & O3).
        specialize (Hlone i o I1 O2). rewrite I2, O3 in Hlone. rewrite Hlone in Eov; [discriminate|]. congruence. }
    assert (P2 : let s' := fold_left (fun s o => fold_left (fun s i => buildGroupDependencies k w i o s) gi s) go (all, s0) in gok either (fst s') /\ okp (snd s') /\ holds a (fst s')).
    { cbn. apply (fold_left_inv (fun s => gok either (fst s) /\ okp (snd s) /\ holds a (fst s)) _ go); [|auto].
      intros s o Ho H. apply (fold_left_inv (fun s => gok either (fst s) /\ okp (snd s) /\ holds a (fst s)) _ gi); [|exact H].
      intros s' i Hi (X1 & X2 & X3). apply P1; assumption. }
    cbn in P2. match goal with |- context [fold_left ?f go (all, s0)] => destruct (fold_left f go (all, s0)) as [all' s1] end. cbn [fst snd] in P2.
    destruct P2 as (G1 & O1 & (l & a' & H1 & H2 & H3)).
    assert (Ea' : either a') by (apply (G1 _ _ H1); exact H2).
    assert (Ep : at_pass a' = Some (d_id p)) by (rewrite <- (attach_eqb_pass a a' H3); apply (Hpass p a Hp Ha)).
    assert (L : listed a' (fold_left (fun s (g : group D) => fold_left (fun s a => addRemainingDependency k w a s) (snd g) s) all' s1)).
    { assert (Step : forall b s, either b -> okp s -> okp (addRemainingDependency k w b s)) by (intros b s Hb Hs; apply (addRemaining_lists b s Hb Hs)).
      assert (Keep : forall b s, either b -> okp s -> listed a' s -> listed a' (addRemainingDependency k w b s)).
      { intros b s Hb (Hs & _) Hls. destruct (addRemaining_ok b s Hb Hs) as [_ K]. apply (listed_keeps a' s _ K Hls). }
      assert (Steps : forall m s, (forall b, In b m -> either b) -> okp s -> okp (fold_left (fun s a => addRemainingDependency k w a s) m s)).
      { intros m s Hm Hs. apply (fold_left_inv okp _ m); [|exact Hs]. intros s' b Hb Hs'. apply Step; auto. }
      apply (fold_left_hit okp (listed a') _ all' (k_get k a, l) H1); [| | |exact O1].
      - intros s [d m] Hg Hs. apply Steps; [|exact Hs]. apply (G1 d m Hg).
      - intros s Hs. cbn [snd]. apply (fold_left_hit okp (listed a') _ l a' H2); [| | |exact Hs].
        + intros s' b Hb Hs'. apply Step; [apply (G1 _ _ H1); exact Hb|exact Hs'].
        + intros s' Hs'. apply (addRemaining_lists a' s' Ea' Hs'). exact Ep.
        + intros s' b Hb Hs' Hl'. apply Keep; [apply (G1 _ _ H1); exact Hb|exact Hs'|exact Hl'].
      - intros s [d m] Hg Hs Hl'. cbn [snd].
        assert (X : okp (fold_left (fun s a => addRemainingDependency k w a s) m s) /\ listed a' (fold_left (fun s a => addRemainingDependency k w a s) m s)); [|apply X].
        apply (fold_left_inv (fun s => okp s /\ listed a' s) _ m); [|auto]. intros s' b Hb [X1 X2]. destruct (G1 d m Hg) as [_ Gm]. auto. }
    destruct L as (b & B1 & B2 & B3). exists b. split; [exact B1|]. split; [|exact B3]. apply (attach_eqb_trans b a' a); [exact B2|]. apply attach_eqb_sym. exact H3.
  Qed.
End Build.
