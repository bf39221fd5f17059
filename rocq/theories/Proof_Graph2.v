From Verif Require Import Spec_Deps Proof_Deps Proof_Graph.
From Coq Require Import Arith ZifyBool ZifyNat ZifyN.
Local Open Scope N_scope.

Lemma node_eqb_iff a b : node_eqb a b = true <-> a = b.
Proof. destruct a, b; cbn; rewrite ?N.eqb_eq; split; intro H; try congruence. Qed.

(* mergeIdentical *)
Section Merge.
  Context {D : Type} (k : traits D).
  Definition mstep (r : list (transition D)) (t : transition D) : list (transition D) :=
    if existsb (fun x => trans_eqb k x t) r then r else r ++ [t].
  Lemma merge_in l : forall r x, In x (fold_left mstep l r) -> In x r \/ In x l.
  Proof.
    induction l as [|t l IH]; intros r x H; cbn in *; [auto|]. apply IH in H. unfold mstep in H. destruct (existsb _ _); [tauto|].
    rewrite in_app_iff in H. cbn in H. tauto.
  Qed.
  Lemma merge_keeps l : forall r x, In x r -> In x (fold_left mstep l r).
  Proof.
    induction l as [|t l IH]; intros r x H; cbn; [exact H|]. apply IH. unfold mstep. destruct (existsb _ _); [exact H|]. apply in_or_app; auto.
  Qed.
  Lemma merge_covers l : forall r x, In x l -> exists y, In y (fold_left mstep l r) /\ (y = x \/ trans_eqb k y x = true).
  Proof.
    induction l as [|t l IH]; intros r x H; [destruct H|]. cbn. destruct H as [->|H]; [|apply IH; exact H].
    unfold mstep at 2. destruct (existsb (fun y => trans_eqb k y x) r) eqn:E.
    - apply existsb_exists in E. destruct E as (y & Hy & E). exists y. split; [apply merge_keeps; exact Hy|auto].
    - exists x. split; [apply merge_keeps, in_or_app; right; left; reflexivity|auto].
  Qed.
  (* no two kept transitions are equal, the earlier being on the left *)
  Definition pairwise_diff (r : list (transition D)) : Prop :=
    forall a x b y c, r = a ++ x :: b ++ y :: c -> trans_eqb k x y = false.
  Lemma snoc_cases {A} (r : list A) t a x b y c : r ++ [t] = a ++ x :: b ++ y :: c ->
    (exists c', c = c' ++ [t] /\ r = a ++ x :: b ++ y :: c') \/ (c = [] /\ y = t /\ r = a ++ x :: b).
  Proof.
    intro H. destruct c as [|z c] using rev_ind.
    - right. assert (E : a ++ x :: b ++ [y] = (a ++ x :: b) ++ [y]) by (rewrite <- app_assoc; reflexivity). rewrite E in H.
      apply app_inj_tail in H. destruct H as [-> ->]. auto.
    - left. clear IHc. assert (E : a ++ x :: b ++ y :: c ++ [z] = (a ++ x :: b ++ y :: c) ++ [z]) by (rewrite <- !app_assoc; cbn; rewrite <- !app_assoc; reflexivity).
      rewrite E in H. apply app_inj_tail in H. destruct H as [-> ->]. exists c. auto.
  Qed.
  Lemma merge_diff l : forall r, pairwise_diff r -> pairwise_diff (fold_left mstep l r).
  Proof.
    induction l as [|t l IH]; intros r H; cbn; [exact H|]. apply IH. unfold mstep. destruct (existsb (fun x => trans_eqb k x t) r) eqn:E; [exact H|].
    intros a x b y c Er. apply snoc_cases in Er. destruct Er as [(c' & -> & Er)|(-> & -> & Er)].
    - apply (H a x b y c' Er).
    - destruct (trans_eqb k x t) eqn:Et; [|reflexivity]. rewrite <- E. symmetry. apply existsb_exists. exists x. split; [|exact Et].
      rewrite Er. apply in_or_app. right. left. reflexivity.
  Qed.
  Lemma sublist_refl {A} (l : list A) : sublist l l.
  Proof. induction l; constructor; assumption. Qed.
  Lemma sublist_nil {A} (l : list A) : sublist [] l.
  Proof. induction l; constructor; assumption. Qed.
  Lemma sublist_app {A} (a b c d : list A) : sublist a b -> sublist c d -> sublist (a ++ c) (b ++ d).
  Proof. intro H. induction H; intro H'; cbn; [exact H'|constructor; apply IHsublist; exact H'|constructor; apply IHsublist; exact H']. Qed.
  Lemma merge_sublist l : forall r m, sublist r m -> sublist (fold_left mstep l r) (m ++ l).
  Proof.
    induction l as [|t l IH]; intros r m H; cbn; [rewrite app_nil_r; exact H|].
    assert (E : m ++ t :: l = (m ++ [t]) ++ l) by (rewrite <- app_assoc; reflexivity). rewrite E. apply IH.
    unfold mstep. destruct (existsb _ _).
    - rewrite <- (app_nil_r r). apply sublist_app; [exact H|apply sublist_nil].
    - apply sublist_app; [exact H|apply sublist_refl].
  Qed.
  Lemma add_new_in l new : forall d x, In x (fst (fold_left (fun '(l, dirty) t => if existsb (fun x => trans_eqb k x t) l then (l, dirty) else (l ++ [t], true)) new (l, d))) -> In x l \/ In x new.
  Proof.
    revert l. induction new as [|t new IH]; intros l d x H; cbn in *; [auto|]. destruct (existsb _ _).
    - apply IH in H. tauto.
    - apply IH in H. rewrite in_app_iff in H. cbn in H. tauto.
  Qed.
  Lemma add_new_keeps l new : forall d x, In x l -> In x (fst (fold_left (fun '(l, dirty) t => if existsb (fun x => trans_eqb k x t) l then (l, dirty) else (l ++ [t], true)) new (l, d))).
  Proof.
    revert l. induction new as [|t new IH]; intros l d x H; cbn in *; [exact H|]. destruct (existsb _ _); apply IH; [exact H|apply in_or_app; auto].
  Qed.
  Lemma add_new_nonempty l new : new <> [] -> fst (add_new k l new) <> [].
  Proof.
    unfold add_new. destruct new as [|t new]; [congruence|]. intros _. cbn. destruct (existsb (fun x => trans_eqb k x t) l) eqn:E.
    - apply existsb_exists in E. destruct E as (x & Hx & _). intro H. pose proof (add_new_keeps l new false x Hx) as H'. rewrite H in H'. destruct H'.
    - intro H. assert (Ht : In t (l ++ [t])) by (apply in_or_app; right; left; reflexivity). pose proof (add_new_keeps (l ++ [t]) new true t Ht) as H'. rewrite H in H'. destruct H'.
  Qed.
  Lemma merge_nonempty l : l <> [] -> mergeIdentical k l <> [].
  Proof.
    destruct l as [|t l]; [congruence|]. intros _ H. destruct (merge_covers (t :: l) [] t (or_introl eq_refl)) as (y & Hy & _).
    unfold mergeIdentical in H. change (fold_left mstep (t :: l) [] = []) in H. rewrite H in Hy. destruct Hy.
  Qed.
  Lemma add_new_nonempty_l l new : l <> [] -> fst (add_new k l new) <> [].
  Proof.
    destruct l as [|x l]; [congruence|]. intros _ H. pose proof (add_new_keeps (x :: l) new false x (or_introl eq_refl)) as H'.
    unfold add_new in H. rewrite H in H'. destruct H'.
  Qed.
End Merge.

Lemma addAttaches_views mine new t : In t (as_views (addAttaches_to mine new)) -> In t (as_views mine) \/ In t (as_views new).
Proof.
  unfold addAttaches_to, add_new. pose proof (add_new_in view_traits (as_views mine) (as_views new) false t) as H.
  destruct (fold_left _ (as_views new) (as_views mine, false)) as [v d1]. destruct (fold_left _ (as_buffers new) (as_buffers mine, false)) as [b d2].
  cbn in H. destruct (orb d1 d2); cbn; [|exact H]. intro Hm. apply H. apply merge_in in Hm. destruct Hm as [[]|Hm]. exact Hm.
Qed.
Lemma addAttaches_buffers mine new t : In t (as_buffers (addAttaches_to mine new)) -> In t (as_buffers mine) \/ In t (as_buffers new).
Proof.
  unfold addAttaches_to, add_new. pose proof (add_new_in buffer_traits (as_buffers mine) (as_buffers new) false t) as H.
  destruct (fold_left _ (as_views new) (as_views mine, false)) as [v d1]. destruct (fold_left _ (as_buffers new) (as_buffers mine, false)) as [b d2].
  cbn in H. destruct (orb d1 d2); cbn; [|exact H]. intro Hm. apply H. apply merge_in in Hm. destruct Hm as [[]|Hm]. exact Hm.
Qed.
Definition nonempty (a : attaches) : Prop := as_views a <> [] \/ as_buffers a <> [].
Lemma addAttaches_nonempty mine new : nonempty new \/ nonempty mine -> nonempty (addAttaches_to mine new).
Proof.
  intro H. unfold addAttaches_to.
  assert (A : fst (add_new view_traits (as_views mine) (as_views new)) <> [] \/ fst (add_new buffer_traits (as_buffers mine) (as_buffers new)) <> []).
  { destruct H as [[H|H]|[H|H]]; [left; apply add_new_nonempty|right; apply add_new_nonempty|left; apply add_new_nonempty_l|right; apply add_new_nonempty_l]; exact H. }
  destruct (add_new view_traits _ _) as [v d1]. destruct (add_new buffer_traits _ _) as [b d2]. cbn in A.
  destruct (orb d1 d2); unfold nonempty; cbn; [|exact A]. destruct A as [A|A]; [left|right]; apply merge_nonempty; exact A.
Qed.

Lemma add_entry_in n prev new l e : In e (add_entry n prev new l) ->
  In e l \/ exists a, (a = no_attaches \/ In (n, (prev, a)) l) /\ e = (n, (prev, addAttaches_to a new)).
Proof.
  induction l as [|[n' [p' a]] l IH]; cbn [add_entry].
  - intros [<-|[]]. right. exists no_attaches. auto.
  - destruct (andb (N.eqb n' n) (node_eqb p' prev)) eqn:E.
    + apply andb_true_iff in E. destruct E as [E1 E2]. apply N.eqb_eq in E1. apply node_eqb_iff in E2. subst n' p'.
      intros [<-|H]; [right; exists a; split; [right; left; reflexivity|reflexivity]|left; right; exact H].
    + intros [<-|H]; [left; left; reflexivity|]. destruct (IH H) as [H'|(a' & Ha & ->)]; [left; right; exact H'|].
      right. exists a'. split; [destruct Ha as [Ha|Ha]; [left; exact Ha|right; right; exact Ha]|reflexivity].
Qed.
Lemma add_entry_has n prev new l : exists a, In (n, (prev, a)) (add_entry n prev new l).
Proof.
  induction l as [|[n' [p' a]] l (b & IH)]; cbn [add_entry]; [eexists; left; reflexivity|]. destruct (andb (N.eqb n' n) (node_eqb p' prev)) eqn:E.
  - apply andb_true_iff in E. destruct E as [E1 E2]. apply N.eqb_eq in E1. apply node_eqb_iff in E2. subst. eexists. left. reflexivity.
  - exists b. right. exact IH.
Qed.
Lemma add_entry_other n prev new l n' p' : (exists a, In (n', (p', a)) l) -> exists a, In (n', (p', a)) (add_entry n prev new l).
Proof.
  induction l as [|[n0 [p0 a0]] l IH]; intros (a & H); [destruct H|]. cbn [add_entry]. destruct (andb (N.eqb n0 n) (node_eqb p0 prev)).
  - destruct H as [H|H]; [injection H as -> -> ->; eexists; left; reflexivity|exists a; right; exact H].
  - destruct H as [H|H]; [exists a; left; exact H|]. destruct (IH (ex_intro _ a H)) as (b & Hb). exists b. right. exact Hb.
Qed.

  Lemma attachNode_next g from to new e : In e (gr_next (attachNode g from to new)) <-> In e (gr_next g) \/ e = (from, to).
  Proof.
    cbn. destruct (existsb _ _) eqn:E.
    - apply existsb_exists in E. destruct E as ([f t] & H & E). cbn in E. apply andb_true_iff in E. destruct E as [E1 E2].
      apply node_eqb_iff in E1. apply N.eqb_eq in E2. subst. split; [auto|]. intros [H0|E]; [exact H0|rewrite E; exact H].
    - rewrite in_app_iff. cbn. intuition.
  Qed.
  Definition gincl (g g' : graph) : Prop := forall e, In e (gr_next g) -> In e (gr_next g').
  Lemma attachNode_incl g from to new : gincl g (attachNode g from to new).
  Proof. intros e H. apply attachNode_next. left. exact H. Qed.

  Lemma getNext_iff g n m : In m (getNext g n) <-> In (n, m) (gr_next g).
  Proof.
    unfold getNext. rewrite in_map_iff. split.
    - intros ([f t] & <- & H). apply filter_In in H. destruct H as [H E]. cbn in *. apply node_eqb_iff in E. subst. exact H.
    - intro H. exists (n, m). split; [reflexivity|]. apply filter_In. split; [exact H|]. apply node_eqb_iff. reflexivity.
  Qed.
Section Graph.
  Variables (Jv : N -> N -> transition view -> Prop) (Jb : N -> N -> transition (list N) -> Prop).
  Definition justified (prev : node) (n : N) (a : attaches) : Prop :=
    (forall t, In t (as_views a) -> exists o, prev = Some o /\ Jv o n t) /\ (forall t, In t (as_buffers a) -> exists o, prev = Some o /\ Jb o n t).
  Definition ginv (g : graph) : Prop :=
    NoDup (gr_next g) /\
    (forall n prev a, In (n, (prev, a)) (gr_inputs g) -> In (prev, n) (gr_next g) /\ justified prev n a /\ (prev <> None -> nonempty a)) /\
    (forall prev n, In (prev, n) (gr_next g) -> exists a, In (n, (prev, a)) (gr_inputs g)).
  Lemma ginv_empty : ginv empty_graph.
  Proof. split; [constructor|]. split; intros; match goal with H : In _ _ |- _ => destruct H end. Qed.
  Lemma attachNode_inv g from to new : ginv g -> justified from to new -> (from <> None -> nonempty new) -> ginv (attachNode g from to new).
  Proof.
    intros (G1 & G2 & G3) Hj Hne. split; [|split].
    - cbn. destruct (existsb _ _) eqn:E; [exact G1|].
      apply NoDup_rev in G1. rewrite <- (rev_involutive (gr_next g ++ [(from, to)])). apply NoDup_rev. rewrite rev_app_distr. cbn. constructor; [|exact G1].
      rewrite <- in_rev. intro H. assert (X : existsb (fun e => andb (node_eqb (fst e) from) (N.eqb (snd e) to)) (gr_next g) = true); [|congruence].
      apply existsb_exists. exists (from, to). split; [exact H|]. cbn. rewrite N.eqb_refl, andb_true_r. apply node_eqb_iff. reflexivity.
    - intros n prev a H. cbn [gr_inputs attachNode] in H. rewrite attachNode_next. apply add_entry_in in H. destruct H as [H|(b & Hb & E)].
      + destruct (G2 n prev a H) as (H1 & H2 & H3). auto.
      + injection E as -> -> ->. split; [right; reflexivity|].
        assert (Jb0 : justified from to b /\ (b = no_attaches \/ (from <> None -> nonempty b))).
        { destruct Hb as [Hb|Hb]; [subst b; split; [split; intros t []|left; reflexivity]|]. destruct (G2 _ _ _ Hb) as (_ & J & Ne). auto. }
        destruct Jb0 as [[J1 J2] Nb]. destruct Hj as [K1 K2]. split; [split|].
        * intros t Ht. apply addAttaches_views in Ht. destruct Ht as [Ht|Ht]; auto.
        * intros t Ht. apply addAttaches_buffers in Ht. destruct Ht as [Ht|Ht]; auto.
        * intro Hp. apply addAttaches_nonempty. left. apply Hne. exact Hp.
    - intros prev n H. apply attachNode_next in H. cbn [gr_inputs attachNode]. destruct H as [H|E].
      + apply add_entry_other, G3, H.
      + injection E as -> ->. apply add_entry_has.
  Qed.
  Lemma getNext_nodup g n : ginv g -> NoDup (getNext g n).
  Proof.
    intros (G1 & _). unfold getNext. induction (gr_next g) as [|[f t] l IH]; cbn; [constructor|]. inversion G1 as [|? ? Hx Hl]; subst.
    destruct (node_eqb f n) eqn:E; [|apply IH; exact Hl]. cbn. constructor; [|apply IH; exact Hl].
    apply node_eqb_iff in E. subst f. rewrite in_map_iff. intros ([f' t'] & E & H). cbn in E. subst t'. apply filter_In in H. destruct H as [H E]. cbn in E.
    apply node_eqb_iff in E. subst. exact (Hx H).
  Qed.
  Lemma getInputAttaches_ok g n prev : ginv g -> In (prev, n) (gr_next g) -> exists a, getInputAttaches g n prev = Some a /\ justified prev n a /\ (prev <> None -> nonempty a).
  Proof.
    intros (_ & G2 & G3) H. destruct (G3 prev n H) as (a & Ha). unfold getInputAttaches.
    destruct (filter _ (gr_inputs g)) as [|[n' [p' a']] l] eqn:E.
    - exfalso. assert (X : In (n, (prev, a)) []); [|destruct X]. rewrite <- E. apply filter_In. split; [exact Ha|]. cbn. rewrite N.eqb_refl. apply node_eqb_iff. reflexivity.
    - exists a'. split; [reflexivity|]. assert (X : In (n', (p', a')) (filter (fun e => andb (N.eqb (fst e) n) (node_eqb (fst (snd e)) prev)) (gr_inputs g))) by (rewrite E; left; reflexivity).
      apply filter_In in X. destruct X as [X Y]. cbn in Y. apply andb_true_iff in Y. destruct Y as [Y1 Y2]. apply N.eqb_eq in Y1. apply node_eqb_iff in Y2. subst.
      destruct (G2 n prev a' X) as (_ & J & Ne). auto.
  Qed.
  Lemma hasPrev_iff g n : ginv g -> (hasPrev g n = true <-> exists prev, In (prev, n) (gr_next g)).
  Proof.
    intros (_ & G2 & G3). unfold hasPrev. rewrite existsb_exists. split.
    - intros ([n' [p a]] & H & E). cbn in E. apply N.eqb_eq in E. subst. exists p. apply (G2 n p a H).
    - intros (p & H). destruct (G3 p n H) as (a & Ha). exists (n, (p, a)). split; [exact Ha|]. apply N.eqb_refl.
  Qed.
End Graph.

Section Kind.
  Variables (Jv : N -> N -> transition view -> Prop) (Jb : N -> N -> transition (list N) -> Prop).
  Context {D : Type} (k : traits D) (mk : transition D -> attaches) (w : world) (att : dpass -> list attach) (U : D -> Prop) (FP : D -> N -> N -> Prop) (Inv : dcache -> Prop).
  Variable J : N -> N -> transition D -> Prop.
  Hypothesis Hq : forall i o d c, In o (map d_id w) -> U d -> Inv c ->
    exists b c', k_dependsOn k w i o d c = (b, c') /\ (b = true <-> FP d i o) /\ Inv c'.
  Hypothesis Hpass : forall p a, In p w -> In a (att p) -> at_pass a = Some (d_id p).
  Hypothesis Hmk : forall o i t, J o i t -> justified Jv Jb (Some o) i (mk t) /\ nonempty (mk t).
  Hypothesis HJ : forall o i t, okt k w att U t -> at_pass (t_out t) = Some o -> at_pass (t_in t) = Some i -> FP (t_data t) i o -> J o i t.
  Definition kstep : graph * dcache -> transition D -> graph * dcache := fun '(g, c) t =>
    match at_pass (t_in t), at_pass (t_out t) with
    | Some i, Some o =>
        let '(b, c) := k_dependsOn k w i o (t_data t) c in
        if b then (attachNode g (Some o) i (mk t), c) else (g, c)
    | _, _ => (g, c)
    end.
  Lemma kstep_ok g c t : okt k w att U t -> ginv Jv Jb g -> Inv c ->
    let '(g', c') := kstep (g, c) t in
    ginv Jv Jb g' /\ Inv c' /\ gincl g g' /\
    (forall i o, at_pass (t_in t) = Some i -> at_pass (t_out t) = Some o -> FP (t_data t) i o -> In (Some o, i) (gr_next g')) /\
    (forall e, In e (gr_next g') -> In e (gr_next g) \/ exists i o, e = (Some o, i) /\ at_pass (t_in t) = Some i /\ at_pass (t_out t) = Some o).
  Proof.
    intros Ht Hg Hc. unfold kstep. destruct (at_pass (t_in t)) as [i|] eqn:Ei; [|split; [exact Hg|split; [exact Hc|split; [intros e H; exact H|split; [intros i o E; discriminate|auto]]]]].
    destruct (at_pass (t_out t)) as [o|] eqn:Eo; [|split; [exact Hg|split; [exact Hc|split; [intros e H; exact H|split; [intros i0 o0 _ E; discriminate|auto]]]]].
    pose proof Ht as [HUt Hok]. destruct Hok as [(Ho & Hi & _)|[[H _]|[H _]]]; [|congruence|congruence].
    assert (Ino : In o (map d_id w)). { destruct Ho as (p & Hp & Ha & _). rewrite (Hpass p _ Hp Ha) in Eo. injection Eo as <-. apply in_map. exact Hp. }
    destruct (Hq i o (t_data t) c Ino HUt Hc) as (b & c' & -> & Hb & Hc'). destruct b.
    - assert (HF : FP (t_data t) i o) by (apply Hb; reflexivity). destruct (Hmk o i t (HJ o i t Ht Eo Ei HF)) as [M1 M2].
      split; [apply attachNode_inv; auto|]. split; [exact Hc'|]. split; [apply attachNode_incl|]. split.
      + intros i0 o0 E1 E2 _. injection E1 as <-. injection E2 as <-. apply attachNode_next. right. reflexivity.
      + intros e He. apply attachNode_next in He. destruct He as [He| ->]; [left; exact He|right]. exists i, o. auto.
    - split; [exact Hg|]. split; [exact Hc'|]. split; [intros e H; exact H|]. split.
      + intros i0 o0 E1 E2 HF. injection E1 as <-. injection E2 as <-. apply Hb in HF. discriminate.
      + intros e He. left. exact He.
  Qed.
  Lemma kind_ok l : forall g c, Forall (okt k w att U) l -> ginv Jv Jb g -> Inv c ->
    let '(g', c') := buildGraph_kind k mk w l (g, c) in
    ginv Jv Jb g' /\ Inv c' /\ gincl g g' /\
    (forall t i o, In t l -> at_pass (t_in t) = Some i -> at_pass (t_out t) = Some o -> FP (t_data t) i o -> In (Some o, i) (gr_next g')) /\
    (forall e, In e (gr_next g') -> In e (gr_next g) \/ exists i o, e = (Some o, i)).
  Proof.
    unfold buildGraph_kind. change (fun '(g, c) t => match at_pass (t_in t), at_pass (t_out t) with Some i, Some o => let '(b, c0) := k_dependsOn k w i o (t_data t) c in if b then (attachNode g (Some o) i (mk t), c0) else (g, c0) | _, _ => (g, c) end) with kstep.
    induction l as [|t l IH]; intros g c Hl Hg Hc; cbn [fold_left].
    - split; [exact Hg|]. split; [exact Hc|]. split; [intros e H; exact H|]. split; [intros t i o []|auto].
    - inversion Hl as [|? ? Ht Hl']; subst. pose proof (kstep_ok g c t Ht Hg Hc) as K. destruct (kstep (g, c) t) as [g1 c1].
      destruct K as (K1 & K2 & K3 & K4 & K5). specialize (IH g1 c1 Hl' K1 K2). destruct (fold_left kstep l (g1, c1)) as [g2 c2].
      destruct IH as (I1 & I2 & I3 & I4 & I5). split; [exact I1|]. split; [exact I2|]. split; [intros e He; apply I3, K3, He|]. split.
      + intros t' i o [<-|Hin] E1 E2 HF; [apply I3, (K4 i o E1 E2 HF)|apply (I4 t' i o Hin E1 E2 HF)].
      + intros e He. destruct (I5 e He) as [He'|He']; [|auto]. destruct (K5 e He') as [He''|(i & o & -> & _)]; [auto|right; exists i, o; reflexivity].
  Qed.
End Kind.

(* The root step *)
Lemma root_ok Jv Jb nodes : forall g, ginv Jv Jb g ->
  let g' := fold_left (fun g p => if hasPrev g (d_id p) then g else attachNode g None (d_id p) no_attaches) nodes g in
  ginv Jv Jb g' /\ gincl g g' /\ (forall p, In p nodes -> exists prev, In (prev, d_id p) (gr_next g')) /\
  (forall o i, In (Some o, i) (gr_next g') -> In (Some o, i) (gr_next g)).
Proof.
  induction nodes as [|p nodes IH]; intros g Hg; cbn [fold_left]; cbv zeta.
  - split; [exact Hg|]. split; [intros e H; exact H|]. split; [intros p []|auto].
  - destruct (hasPrev g (d_id p)) eqn:E.
    + destruct (IH g Hg) as (I1 & I2 & I3 & I4). split; [exact I1|]. split; [exact I2|]. split; [|exact I4].
      intros q [<-|Hq]; [|apply I3; exact Hq]. apply (hasPrev_iff Jv Jb g (d_id p) Hg) in E. destruct E as (prev & E). exists prev. apply I2. exact E.
    + assert (Hg' : ginv Jv Jb (attachNode g None (d_id p) no_attaches)) by (apply attachNode_inv; [exact Hg|split; intros t []|congruence]).
      destruct (IH _ Hg') as (I1 & I2 & I3 & I4). split; [exact I1|]. split; [intros e He; apply I2, attachNode_incl, He|]. split.
      * intros q [<-|Hq]; [|apply I3; exact Hq]. exists None. apply I2. apply attachNode_next. right. reflexivity.
      * intros o i H. apply I4 in H. apply attachNode_next in H. destruct H as [H|H]; [exact H|discriminate].
Qed.

Section Compile.
  Variable w : world.
  Hypothesis Hord : compiled_order w.
  Hypothesis Hids : ids_ok w.
  Hypothesis Hdecl : well_declared w.
  Definition Uv (v : view) : Prop := In v (attachment_views w).
  Definition Ub (b : list N) : Prop := In b (attachment_buffers w).
  Definition FPv (v : view) (i o : N) : Prop := first_producer (writes_view v) (reads_view v) w i o.
  Definition FPb (b : list N) (i o : N) : Prop := first_producer (declares_storage b) (declares_storage b) w i o.
  Definition kv (t : N) (v : view) : N := makeHash_view t (v_id v).
  Definition Invv : dcache -> Prop := table_ok isInOutputs_view isInInputs_view kv w Uv.
  Definition Invb : dcache -> Prop := table_ok isInOutputs_buffer isInInputs_buffer makeHash_buffer w Ub.

  Lemma id32 t : In t (map d_id w) -> t < 2 ^ 32.
  Proof. rewrite in_map_iff. intros (p & <- & Hp). apply (proj1 Hids). exact Hp. Qed.
  Lemma kv_inj t d t' d' : In t (map d_id w) -> In t' (map d_id w) -> Uv d -> Uv d' -> kv t d = kv t' d' -> t = t' /\ d = d'.
  Proof.
    intros Ht Ht' Hd Hd' E. destruct Hids as (_ & [V1 V2] & _).
    destruct (makeHash_view_inj t (v_id d) t' (v_id d') (id32 t Ht) (id32 t' Ht') (V1 d Hd) (V1 d' Hd') E) as [-> E2]. split; [reflexivity|]. apply V2; assumption.
  Qed.
  Lemma kb_inj t d t' d' : In t (map d_id w) -> In t' (map d_id w) -> Ub d -> Ub d' -> makeHash_buffer t d = makeHash_buffer t' d' -> t = t' /\ d = d'.
  Proof.
    intros Ht Ht' Hd Hd' E. apply (makeHash_buffer_inj t d t' d' (id32 t Ht) (id32 t' Ht')) in E. destruct E as [-> E]. split; [reflexivity|]. destruct Hids as (_ & _ & B). apply B; assumption.
  Qed.
  Lemma Hqv i o d c : In o (map d_id w) -> Uv d -> Invv c -> exists b c', k_dependsOn view_traits w i o d c = (b, c') /\ (b = true <-> FPv d i o) /\ Invv c'.
  Proof.
    intros Ho Hd Hc. destruct (table_query isInOutputs_view isInInputs_view kv w Uv Hord kv_inj o d i c Ho Hd Hc) as (b & c' & E & Hb & Hc').
    exists b, c'. split; [exact E|]. split; [|exact Hc']. rewrite Hb. apply fpb_iff; [apply isInOutputs_view_iff|apply isInInputs_view_iff].
  Qed.
  Lemma Hqb i o d c : In o (map d_id w) -> Ub d -> Invb c -> exists b c', k_dependsOn buffer_traits w i o d c = (b, c') /\ (b = true <-> FPb d i o) /\ Invb c'.
  Proof.
    intros Ho Hd Hc. destruct (table_query isInOutputs_buffer isInInputs_buffer makeHash_buffer w Ub Hord kb_inj o d i c Ho Hd Hc) as (b & c' & E & Hb & Hc').
    exists b, c'. split; [exact E|]. split; [|exact Hc']. rewrite Hb. apply fpb_iff; apply isInOutputs_buffer_iff.
  Qed.
  Lemma HUv a : din view_traits w d_images a \/ dout view_traits w d_images a -> Uv (k_get view_traits a).
  Proof.
    intros [(p & Hp & Ha & _)|(p & Hp & Ha & _)]; unfold Uv, attachment_views; apply in_flat_map; exists p; (split; [exact Hp|apply in_map_iff; exists a; auto]).
  Qed.
  Lemma HUb a : din buffer_traits w d_buffers a \/ dout buffer_traits w d_buffers a -> Ub (k_get buffer_traits a).
  Proof.
    intros [(p & Hp & Ha & _)|(p & Hp & Ha & _)]; unfold Ub, attachment_buffers; apply in_flat_map; exists p; (split; [exact Hp|apply in_map_iff; exists a; auto]).
  Qed.
  Lemma Hpassv p a : In p w -> In a (d_images p) -> at_pass a = Some (d_id p).
  Proof. intros Hp Ha. apply (proj1 (Hdecl p Hp) a Ha). Qed.
  Lemma Hpassb p a : In p w -> In a (d_buffers p) -> at_pass a = Some (d_id p).
  Proof. intros Hp Ha. apply (proj2 (Hdecl p Hp) a Ha). Qed.
  Lemma Hgiv x y : k_getInput view_traits x y = k_get view_traits x \/ k_getInput view_traits x y = k_get view_traits y.
  Proof. cbn. unfold getInputView. destruct (orb _ _); auto. Qed.
  Lemma Hgov x y : k_getOutput view_traits x y = k_get view_traits x \/ k_getOutput view_traits x y = k_get view_traits y.
  Proof. cbn. unfold getOutputView. destruct (isSingleMipView _ _); auto. Qed.
  Lemma Hgib x y : k_getInput buffer_traits x y = k_get buffer_traits x \/ k_getInput buffer_traits x y = k_get buffer_traits y.
  Proof. left. reflexivity. Qed.
  Lemma Hgob x y : k_getOutput buffer_traits x y = k_get buffer_traits x \/ k_getOutput buffer_traits x y = k_get buffer_traits y.
  Proof. left. reflexivity. Qed.
  Lemma Hsplitb (a l : attach) : In l (k_split buffer_traits a) -> l = a.
  Proof. intros [<-|[]]. reflexivity. Qed.

  Lemma sokv : sok view_traits w d_images Uv Invv (allTransitions view_traits w d_images w).
  Proof.
    apply (all_ok view_traits w d_images Uv FPv Invv Hqv HUv Hgiv Hgov splitAttach_in Hpassv (fun _ => eq_refl) w (fun x H => H)).
    apply table_empty.
  Qed.
  Lemma sokb : sok buffer_traits w d_buffers Ub Invb (allTransitions buffer_traits w d_buffers w).
  Proof.
    apply (all_ok buffer_traits w d_buffers Ub FPb Invb Hqb HUb Hgib Hgob Hsplitb Hpassb (fun _ => eq_refl) w (fun x H => H)).
    apply table_empty.
  Qed.

  Lemma Jv_ok o i t : okt view_traits w d_images Uv t -> at_pass (t_out t) = Some o -> at_pass (t_in t) = Some i -> FPv (t_data t) i o -> carries_view w o i t.
  Proof.
    intros [_ Hok] Eo Ei HF. destruct Hok as [(Ho & Hi & Hd)|[[H _]|[H _]]]; [|congruence|congruence].
    destruct Ho as (p & Hp & Ha & Hk). destruct Hi as (q & Hq & Hb & Hl). rewrite (Hpassv p _ Hp Ha) in Eo. rewrite (Hpassv q _ Hq Hb) in Ei.
    injection Eo as <-. injection Ei as <-. unfold carries_view. rewrite !pass_of_unique by (try exact (proj1 Hord); assumption). auto.
  Qed.
  Lemma Jb_ok o i t : okt buffer_traits w d_buffers Ub t -> at_pass (t_out t) = Some o -> at_pass (t_in t) = Some i -> FPb (t_data t) i o ->
    carries_buffer w o i t.
  Proof.
    intros [_ Hok] Eo Ei HF. destruct Hok as [(Ho & Hi & Hd)|[[H _]|[H _]]]; [|congruence|congruence].
    destruct Ho as (p & Hp & Ha & Hk). destruct Hi as (q & Hq & Hb & Hl). rewrite (Hpassb p _ Hp Ha) in Eo. rewrite (Hpassb q _ Hq Hb) in Ei.
    injection Eo as <-. injection Ei as <-. unfold carries_buffer. rewrite !pass_of_unique by (try exact (proj1 Hord); assumption).
    cbn in Hk, Hl. apply andb_true_iff in Hk. apply andb_true_iff in Hl. destruct Hk, Hl. auto.
  Qed.

  Lemma compile_ok :
    let g := compileGraph w in
    ginv (carries_view w) (carries_buffer w) g /\
    (forall p, In p w -> exists prev, In (prev, d_id p) (gr_next g)) /\
    (forall t i o, In t (b_all (allTransitions view_traits w d_images w)) -> at_pass (t_in t) = Some i -> at_pass (t_out t) = Some o -> FPv (t_data t) i o -> In (Some o, i) (gr_next g)) /\
    (forall t i o, In t (b_all (allTransitions buffer_traits w d_buffers w)) -> at_pass (t_in t) = Some i -> at_pass (t_out t) = Some o -> FPb (t_data t) i o -> In (Some o, i) (gr_next g)).
  Proof.
    unfold compileGraph, buildGraph. pose proof sokv as (A1 & _ & _ & A4). pose proof sokb as (B1 & _ & _ & B4).
    set (vt := allTransitions view_traits w d_images w) in *. set (bt := allTransitions buffer_traits w d_buffers w) in *.
    pose proof (kind_ok (carries_view w) (carries_buffer w) view_traits (fun t => {| as_views := [t]; as_buffers := [] |}) w d_images Uv FPv Invv (carries_view w) Hqv Hpassv) as KV.
    specialize (fun H1 => KV H1 Jv_ok (b_all vt) empty_graph (b_cache vt) A1 (ginv_empty _ _) A4).
    destruct (buildGraph_kind view_traits _ w (b_all vt) (empty_graph, b_cache vt)) as [g1 c1].
    destruct KV as (G1 & _ & _ & V1 & _).
    { intros o i t Ht. split; [|left; discriminate]. split; [|intros t' []]. intros t' [<-|[]]. exists o. auto. }
    pose proof (kind_ok (carries_view w) (carries_buffer w) buffer_traits (fun t => {| as_views := []; as_buffers := [t] |}) w d_buffers Ub FPb Invb (carries_buffer w) Hqb Hpassb) as KB.
    specialize (fun H1 => KB H1 Jb_ok (b_all bt) g1 (b_cache bt) B1 G1 B4).
    destruct (buildGraph_kind buffer_traits _ w (b_all bt) (g1, b_cache bt)) as [g2 c2].
    destruct KB as (G2 & _ & I2 & V2 & _).
    { intros o i t Ht. split; [|right; discriminate]. split; [intros t' []|]. intros t' [<-|[]]. exists o. auto. }
    destruct (root_ok (carries_view w) (carries_buffer w) w g2 G2) as (G3 & I3 & R3 & _). cbv zeta.
    split; [exact G3|]. split; [exact R3|]. split.
    - intros t i o Ht E1 E2 HF. apply I3, I2, (V1 t i o Ht E1 E2 HF).
    - intros t i o Ht E1 E2 HF. apply I3, (V2 t i o Ht E1 E2 HF).
  Qed.

  Lemma edge_depends a b : In b (getNext (compileGraph w) (Some a)) -> depends w b a.
  Proof.
    destruct compile_ok as (G & _). intro H. apply getNext_iff in H. destruct (getInputAttaches_ok _ _ _ b (Some a) G H) as (x & _ & [J1 J2] & Ne).
    destruct (Ne ltac:(discriminate)) as [N1|N1].
    - destruct (as_views x) as [|t l]; [congruence|]. destruct (J1 t (or_introl eq_refl)) as (o & E & (_ & _ & _ & F)). injection E as ->. apply (fp_depends _ _ _ _ _ F).
    - destruct (as_buffers x) as [|t l]; [congruence|]. destruct (J2 t (or_introl eq_refl)) as (o & E & (_ & _ & _ & F)). injection E as ->. apply (fp_depends _ _ _ _ _ F).
  Qed.
  Lemma depends_rank a b : depends w a b -> (rank w b < rank w a)%nat.
  Proof. intro H. induction H as [a b H|a b c _ IH1 _ IH2]; [apply rank_dep; assumption|lia]. Qed.
  Lemma depends_in a b : depends w a b -> In a (map d_id w) -> In b (map d_id w).
  Proof.
    intros H. induction H as [a b H|a b c _ IH1 _ IH2]; [|auto]. intros _. unfold needs_pass in H.
    destruct (pass_of_split w a) as [E|(bf & p & af & Ew & _ & _ & Ep)]; [rewrite E in H; destruct H|]. rewrite Ep in H.
    pose proof (proj2 Hord bf p af Ew b H) as Hb. rewrite Ew, map_app. apply in_or_app. left. exact Hb.
  Qed.
  Lemma all_reachable n : In n (map d_id w) -> reachable (compileGraph w) n.
  Proof.
    remember (rank w n) as r eqn:Er. revert n Er. induction r as [r IH] using lt_wf_ind. intros n -> Hn.
    destruct compile_ok as (G & R & _). apply in_map_iff in Hn. destruct Hn as (p & <- & Hp). destruct (R p Hp) as ([a|] & Hprev).
    - apply getNext_iff in Hprev. pose proof (edge_depends a (d_id p) Hprev) as Hd. apply (rch_next _ a); [|exact Hprev].
      apply (IH (rank w a)); [apply depends_rank; exact Hd|reflexivity|]. apply (depends_in _ _ Hd). apply in_map. exact Hp.
    - apply rch_root. apply getNext_iff. exact Hprev.
  Qed.

  Lemma opt_eqb_eq a b : opt_eqb a b = true -> a = b.
  Proof. destruct a, b; cbn; intro H; try discriminate; [apply N.eqb_eq in H; congruence|reflexivity]. Qed.
  Lemma list_eqb_refl {A} (e : A -> A -> bool) l : (forall x, e x x = true) -> list_eqb e l l = true.
  Proof. intro H. induction l as [|x l IH]; cbn; [reflexivity|]. rewrite H. exact IH. Qed.
  Lemma attach_eqb_refl a : attach_eqb a a = true.
  Proof.
    unfold attach_eqb. rewrite !N.eqb_refl, !list_eqb_refl by (intro; apply N.eqb_refl). unfold buffer_eqb. rewrite list_eqb_refl by (intro; apply N.eqb_refl).
    destruct (at_pass a); cbn; rewrite ?N.eqb_refl; reflexivity.
  Qed.
  Lemma attach_eqb_views a a' : attach_eqb a a' = true -> isImage a = isImage a' /\ list_eqb view_eqb (ia_views a) (ia_views a') = true /\ ba_buffers a = ba_buffers a' /\ at_pass a = at_pass a'.
  Proof.
    unfold attach_eqb. rewrite !andb_true_iff. intros [[P F] [[[_ V] _] [[_ B] _]]]. apply N.eqb_eq in F. apply opt_eqb_eq in P. apply buffer_eqb_iff in B.
    unfold isImage. rewrite F. auto.
  Qed.
  Lemma viewed_id a a' : isImage a = isImage a' -> list_eqb view_eqb (ia_views a) (ia_views a') = true -> v_id (attach_view a 0) = v_id (attach_view a' 0).
  Proof.
    unfold attach_view. intros <-. destruct (isImage a); [|reflexivity]. destruct (ia_views a) as [|x [|y l]], (ia_views a') as [|x' [|y' l']]; cbn; intro H; try discriminate; try reflexivity.
    all: apply andb_true_iff in H; destruct H as [H H']; try discriminate; apply N.eqb_eq in H; exact H.
  Qed.
  Lemma Haeqv a a' : either view_traits w d_images a -> either view_traits w d_images a' -> attach_eqb a a' = true ->
    k_get view_traits a = k_get view_traits a' /\ at_pass a = at_pass a'.
  Proof.
    intros Ha Ha' E. apply attach_eqb_views in E. destruct E as (E1 & E2 & _ & E4). split; [|exact E4]. destruct Hids as (_ & [_ V2] & _).
    apply V2; [apply HUv; exact Ha|apply HUv; exact Ha'|]. apply viewed_id; assumption.
  Qed.
  Lemma edge_view a b o i : In a w -> In b w -> In o (d_images a) -> isOutput o = true -> In i (d_images b) -> isInput i = true ->
    areOverlapping_view (viewed i) (viewed o) = true -> FPv (viewed i) (d_id b) (d_id a) -> FPv (viewed o) (d_id b) (d_id a) ->
    In (d_id b) (getNext (compileGraph w) (Some (d_id a))).
  Proof.
    intros Ha Hb Ho Ko Hi Ki Hov Fi Fo. destruct compile_ok as (_ & _ & CV & _).
    destruct (all_covers view_traits w d_images Uv FPv Invv Hqv HUv Hgiv Hgov splitAttach_in splitAttach_self Hpassv (fun _ => eq_refl)) with (nodes := w) (i := i) (o := o) (pi := d_id b) (po := d_id a) as (x & Hx & E1 & E2 & Ed); auto.
    - intros d d' Hd Hd' E. apply N.eqb_eq in E. destruct Hids as (_ & [_ V2] & _). apply V2; assumption.
    - apply Haeqv.
    - apply attach_eqb_refl.
    - intros p Hp. exact Hp.
    - apply table_empty.
    - exists b. auto.
    - exists a. auto.
    - apply Hpassv; assumption.
    - apply Hpassv; assumption.
    - apply getNext_iff. apply (CV x (d_id b) (d_id a) Hx E1 E2). destruct Ed as [-> | ->]; assumption.
  Qed.
  Lemma edge_view_query a b o i : In a w -> In b w -> In o (d_images a) -> isOutput o = true -> In i (d_images b) -> isInput i = true ->
    areOverlapping_view (viewed i) (viewed o) = true -> match_view (viewed i) (viewed o) = false -> match_view (viewed o) (viewed i) = false ->
    FPv (getOutputView (viewed i) (viewed o)) (d_id b) (d_id a) ->
    In (d_id b) (getNext (compileGraph w) (Some (d_id a))).
  Proof.
    intros Ha Hb Ho Ko Hi Ki Hov M1 M2 Fq. destruct compile_ok as (_ & _ & CV & _).
    set (q := getOutputView (viewed i) (viewed o)) in *.
    assert (Hne : view_eqb (viewed o) (viewed i) = true -> viewed o = viewed i).
    { intro E. apply N.eqb_eq in E. destruct Hids as (_ & [_ V2] & _). apply V2; [apply HUv; right; exists a; auto|apply HUv; left; exists b; auto|exact E]. }
    assert (T : exists tr, made_by view_traits tr o i /\ forall o' i', k_get view_traits i' = viewed i -> k_get view_traits o' = viewed o -> t_data (tr o' i') = q).
    { unfold q, getOutputView. destruct (isSingleMipView (viewed i) (viewed o)) eqn:S1.
      - destruct (isSingleMipView (viewed o) (viewed i)) eqn:S2.
        + exists (input_transition view_traits). split; [left; reflexivity|]. intros o' i' Ei Eo. cbn in *. unfold getInputView. rewrite Ei, Eo, S2, orb_true_r. reflexivity.
        + exists (output_transition view_traits). split; [right; split; [reflexivity|exact M2]|]. intros o' i' Ei Eo. cbn in *. unfold getOutputView. rewrite Ei, Eo, S2. reflexivity.
      - destruct (isSingleMipView (viewed o) (viewed i)) eqn:S2.
        + exists (output_transition view_traits). split; [right; split; [reflexivity|exact M2]|]. intros o' i' Ei Eo. cbn in *. unfold getOutputView. rewrite Ei, Eo, S2. reflexivity.
        + exists (input_transition view_traits). split; [left; reflexivity|]. intros o' i' Ei Eo. cbn in *. unfold getInputView. rewrite Ei, Eo, S2, orb_false_r.
          destruct (view_eqb (viewed o) (viewed i)) eqn:E; [exact (Hne eq_refl)|reflexivity]. }
    destruct T as (tr & Mb & Td).
    assert (Dq : q = viewed i \/ q = viewed o) by (unfold q, getOutputView; destruct (isSingleMipView _ _); auto).
    destruct (all_covers_by view_traits w d_images Uv FPv Invv Hqv HUv Hgiv Hgov splitAttach_in splitAttach_self Hpassv (fun _ => eq_refl)) with (tr := tr) (nodes := w) (i := i) (o := o) (pi := d_id b) (po := d_id a) as (x & o' & i' & Hx & E1 & E2 & Ed & Ei & Eo & Es); auto.
    - intros d d' Hd Hd' E. apply N.eqb_eq in E. destruct Hids as (_ & [_ V2] & _). apply V2; assumption.
    - apply Haeqv.
    - apply attach_eqb_refl.
    - intros p Hp. exact Hp.
    - apply table_empty.
    - exists b. auto.
    - exists a. auto.
    - apply Hpassv; assumption.
    - apply Hpassv; assumption.
    - intros i' o' Ei Eo. change (k_getOutput view_traits i' o') with (getOutputView (k_get view_traits i') (k_get view_traits o')). rewrite Ei, Eo. exact Fq.
    - rewrite (Td o' i' Ei Eo) in Es. apply getNext_iff. apply (CV x (d_id b) (d_id a) Hx E1 E2).
      assert (X : t_data x = q); [|rewrite X; exact Fq]. destruct Es as [Es|Es]; [exact Es|]. cbn [k_same view_traits k_get] in *. fold (viewed i) in *. fold (viewed o) in *.
      destruct Ed as [Ed|Ed], Dq as [Dq|Dq]; rewrite Ed, Dq in *; try reflexivity; congruence.
  Qed.
  Lemma edge_buffer a b o i : In a w -> In b w -> In o (d_buffers a) -> k_isOutput buffer_traits o = true -> In i (d_buffers b) -> k_isInput buffer_traits i = true ->
    ba_buffers i = ba_buffers o -> FPb (ba_buffers o) (d_id b) (d_id a) ->
    In (d_id b) (getNext (compileGraph w) (Some (d_id a))).
  Proof.
    intros Ha Hb Ho Ko Hi Ki Hov Fo. destruct compile_ok as (_ & _ & _ & CB).
    destruct (all_covers buffer_traits w d_buffers Ub FPb Invb Hqb HUb Hgib Hgob Hsplitb (fun a => or_introl eq_refl) Hpassb (fun _ => eq_refl)) with (nodes := w) (i := i) (o := o) (pi := d_id b) (po := d_id a) as (x & Hx & E1 & E2 & Ed); auto.
    - intros d d' Hd Hd' E. apply buffer_eqb_iff in E. exact E.
    - intros x y _ _ E. apply attach_eqb_views in E. cbn. tauto.
    - apply attach_eqb_refl.
    - intros p Hp. exact Hp.
    - apply table_empty.
    - exists b. auto.
    - exists a. auto.
    - cbn. rewrite Hov. apply N.eqb_refl.
    - apply Hpassb; assumption.
    - apply Hpassb; assumption.
    - cbn. rewrite Hov. exact Fo.
    - apply getNext_iff. apply (CB x (d_id b) (d_id a) Hx E1 E2). destruct Ed as [-> | ->]; cbn; rewrite ?Hov; assumption.
  Qed.
  Lemma view_listed p a : In p w -> In a (d_images p) -> (isInput a = true \/ isOutput a = true) -> (forall q t, ~ carries_view w q (d_id p) t) ->
    ((forall q x, In q w -> In x (d_images q) -> i_id (v_image (viewed x)) = i_id (v_image (viewed a)) -> isOutput x = false) \/
     (forall q x, In q w -> In x (d_images q) -> i_id (v_image (viewed x)) = i_id (v_image (viewed a)) -> isInput x = false)) ->
    exists a', (exists q, In q w /\ In a' (d_images q)) /\ attach_eqb a' a = true /\ viewed a' = viewed a /\ In (remaining_transition view_traits a') (b_all (allTransitions view_traits w d_images w)).
  Proof.
    intros Hp Ha Hs Hnone Hlone.
    destruct (lonely_listed view_traits w d_images Uv FPv Invv Hqv HUv Hgiv Hgov splitAttach_in splitAttach_self Hpassv (fun _ => eq_refl)) with (p := p) (a := a) as (a' & H1 & H2 & H3).
    - intros d d' Hd Hd' E. apply N.eqb_eq in E. destruct Hids as (_ & [_ V2] & _). apply V2; assumption.
    - apply attach_eqb_refl.
    - exact Hp.
    - intros t o Ht Eo Ei HF. apply (Hnone o t). apply Jv_ok; assumption.
    - apply table_empty.
    - exact Ha.
    - exact Hs.
    - intros i o (q & Q1 & Q2 & Q3) (r & R1 & R2 & R3) E. cbn in E, Q3, R3 |- *. destruct Hlone as [Hl|Hl].
      + apply overlap_other_image. intro Ei. change (attach_view i 0) with (viewed i) in *. change (attach_view o 0) with (viewed o) in *. change (attach_view a 0) with (viewed a) in *.
        specialize (Hl r o R1 R2). rewrite <- Ei, E in Hl. specialize (Hl eq_refl). congruence.
      + exfalso. specialize (Hl q i Q1 Q2). unfold viewed in Hl. rewrite E in Hl. specialize (Hl eq_refl). congruence.
    - exists a'. split; [destruct H1 as [(q & Q1 & Q2 & _)|(q & Q1 & Q2 & _)]; exists q; auto|]. split; [exact H2|]. split; [|exact H3].
      apply Haeqv; [exact H1| |exact H2]. destruct Hs; [left|right]; exists p; auto.
  Qed.
  Lemma buffer_listed p a : In p w -> In a (d_buffers p) -> (k_isInput buffer_traits a = true \/ k_isOutput buffer_traits a = true) -> (forall q t, ~ carries_buffer w q (d_id p) t) ->
    ((forall q x, In q w -> In x (d_buffers q) -> buffer_at (ba_buffers x) 0 = buffer_at (ba_buffers a) 0 -> isOutput x = false) \/
     (forall q x, In q w -> In x (d_buffers q) -> buffer_at (ba_buffers x) 0 = buffer_at (ba_buffers a) 0 -> isInput x = false)) ->
    exists a', (exists q, In q w /\ In a' (d_buffers q)) /\ attach_eqb a' a = true /\ In (remaining_transition buffer_traits a') (b_all (allTransitions buffer_traits w d_buffers w)).
  Proof.
    intros Hp Ha Hs Hnone Hlone.
    destruct (lonely_listed buffer_traits w d_buffers Ub FPb Invb Hqb HUb Hgib Hgob Hsplitb (fun a => or_introl eq_refl) Hpassb (fun _ => eq_refl)) with (p := p) (a := a) as (a' & H1 & H2 & H3).
    - intros d d' Hd Hd' E. apply buffer_eqb_iff in E. exact E.
    - apply attach_eqb_refl.
    - exact Hp.
    - intros t o Ht Eo Ei HF. apply (Hnone o t). apply Jb_ok; assumption.
    - apply table_empty.
    - exact Ha.
    - exact Hs.
    - intros i o (q & Q1 & Q2 & Q3) (r & R1 & R2 & R3) E. cbn in E, Q3, R3 |- *. apply andb_true_iff in Q3, R3. destruct Q3 as [Q3 _], R3 as [R3 _]. destruct Hlone as [Hl|Hl].
      + unfold areOverlapping_buffer. apply N.eqb_neq. intro Ei. specialize (Hl r o R1 R2). rewrite <- Ei, E in Hl. specialize (Hl eq_refl). congruence.
      + exfalso. specialize (Hl q i Q1 Q2). rewrite E in Hl. specialize (Hl eq_refl). congruence.
    - exists a'. split; [destruct H1 as [(q & Q1 & Q2 & _)|(q & Q1 & Q2 & _)]; exists q; auto|]. auto.
  Qed.
End Compile.

Lemma merge_all_ok {D} (k : traits D) l : let m := mergeIdentical k l in
  sublist m l /\ (forall x, In x l -> exists y, In y m /\ (y = x \/ trans_eqb k y x = true)) /\
  (forall before x between y after_, m = before ++ x :: between ++ y :: after_ -> trans_eqb k x y = false).
Proof.
  cbv zeta. split; [apply (merge_sublist k l [] [] sl_nil)|]. split; [intros x Hx; apply (merge_covers k l [] x Hx)|].
  apply (merge_diff k l []). intros a x b y c E. destruct a; discriminate.
Qed.
Lemma edges_sound w : compiled_order w -> ids_ok w -> well_declared w ->
  forall a b, In b (getNext (compileGraph w) (Some a)) ->
    depends w b a /\
    exists x, getInputAttaches (compileGraph w) b (Some a) = Some x /\ (as_views x <> [] \/ as_buffers x <> []) /\
      (forall t, In t (as_views x) -> carries_view w a b t) /\ (forall t, In t (as_buffers x) -> carries_buffer w a b t).
Proof.
  intros Ho Hi Hd a b H. split; [apply (edge_depends w Ho Hi Hd a b H)|]. destruct (compile_ok w Ho Hi Hd) as (G & _). apply getNext_iff in H.
  destruct (getInputAttaches_ok _ _ _ b (Some a) G H) as (x & E & [J1 J2] & Ne). exists x. split; [exact E|]. split; [apply Ne; discriminate|]. split.
  - intros t Ht. destruct (J1 t Ht) as (o & Eo & J). injection Eo as ->. exact J.
  - intros t Ht. destruct (J2 t Ht) as (o & Eo & J). injection Eo as ->. exact J.
Qed.
Lemma same_view_edge w : compiled_order w -> ids_ok w -> well_declared w ->
  forall a b o i, In a w -> In b w -> In o (d_images a) -> isOutput o = true -> In i (d_images b) -> isInput i = true ->
  viewed i = viewed o -> proper_range (numbers (viewed o)) ->
  first_producer (writes_view (viewed o)) (reads_view (viewed o)) w (d_id b) (d_id a) ->
  In (d_id b) (getNext (compileGraph w) (Some (d_id a))).
Proof.
  intros Ho Hi Hd a b o i Ia Ib Io Ko Ii Ki E P F. apply (edge_view w Ho Hi Hd a b o i); auto; [|rewrite E; exact F].
  rewrite E. destruct P as (P1 & P2 & P3 & P4). apply (overlap_view_ok (viewed o) (viewed o)); [repeat split; assumption|repeat split; assumption|exact P4|reflexivity|lia|].
  exists (r_layer (numbers (viewed o))), (r_mip (numbers (viewed o))). unfold in_range. lia.
Qed.
Lemma same_buffer_edge w : compiled_order w -> ids_ok w -> well_declared w ->
  forall a b o i, In a w -> In b w -> In o (d_buffers a) -> isOutput o = true -> isStorageBuffer o = true ->
  In i (d_buffers b) -> isInput i = true -> (isStorageBuffer i = true \/ isUniformBuffer i = true \/ isTransitionBuffer i = true) ->
  ba_buffers i = ba_buffers o ->
  first_producer (declares_storage (ba_buffers o)) (declares_storage (ba_buffers o)) w (d_id b) (d_id a) ->
  In (d_id b) (getNext (compileGraph w) (Some (d_id a))).
Proof.
  intros Ho Hi Hd a b o i Ia Ib Io Ko Ks Ii Ki Kk E F. apply (edge_buffer w Ho Hi Hd a b o i); auto; cbn; apply andb_true_iff; split; auto.
  rewrite !orb_true_iff. exact Kk.
Qed.
Lemma query_once w : compiled_order w -> ids_ok w ->
  forall a b m, In a w -> In m (attachment_views w) ->
  fst (dependsOn_view w (d_id b) (d_id a) m []) = true <-> first_producer (writes_view m) (reads_view m) w (d_id b) (d_id a).
Proof.
  intros Ho Hi a b m Ha Hm. destruct (Hqv w Ho Hi (d_id b) (d_id a) m []) as (x & c & E & Hx & _).
  - apply in_map. exact Ha.
  - exact Hm.
  - apply table_empty.
  - change (dependsOn_view w (d_id b) (d_id a) m []) with (k_dependsOn view_traits w (d_id b) (d_id a) m []). rewrite E. exact Hx.
Qed.
