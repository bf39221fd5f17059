From Verif Require Import Spec_Group.
From Coq Require Import Arith.
Local Open Scope N_scope.

Lemma pgroup_ind' (P : pgroup -> Prop) :
  (forall i n ps gs, Forall P gs -> P (Grp i n ps gs)) -> forall g, P g.
Proof.
  intro H. fix IH 1. intros [i n ps gs]. apply H. induction gs as [|g gs IHg]; constructor; auto.
Qed.

Lemma u32_small x : x < 2 ^ 32 -> u32 x = x.
Proof. apply N.mod_small. Qed.
Lemma u32_u32_l x y : u32 (u32 x + y) = u32 (x + y).
Proof. unfold u32. apply N.add_mod_idemp_l. discriminate. Qed.
Lemma u32_u32_r x y : u32 (x + u32 y) = u32 (x + y).
Proof. unfold u32. apply N.add_mod_idemp_r. discriminate. Qed.

Lemma fold_u32 {A} (f : A -> N) (l : list A) a :
  fold_left (fun v x => u32 (v + f x)) l (u32 a) = u32 (a + fold_right (fun x v => f x + v) 0 l).
Proof.
  revert a. induction l as [|x l IH]; intro a; simpl.
  - rewrite N.add_0_r. reflexivity.
  - rewrite u32_u32_l, IH. f_equal. lia.
Qed.

Lemma countPasses_list g : countPasses g = u32 (N.of_nat (List.length (listPasses g))).
Proof.
  induction g as [i n ps gs IH] using pgroup_ind'. cbn [countPasses listPasses].
  rewrite fold_u32, app_length, Nat2N.inj_add.
  assert (E : u32 (fold_right (fun x v => countPasses x + v) 0 gs) = u32 (N.of_nat (List.length (flat_map listPasses gs)))).
  { clear i n ps. induction gs as [|g gs IHg]; [reflexivity|]. inversion IH as [|? ? Hg Hgs]; subst.
    cbn [fold_right flat_map]. rewrite app_length, Nat2N.inj_add, Hg, u32_u32_l, <- u32_u32_r, (IHg Hgs), u32_u32_r.
    reflexivity. }
  rewrite <- u32_u32_r, E, u32_u32_r. reflexivity.
Qed.

Lemma countGroups_list g : countGroups g = u32 (N.of_nat (List.length (all_groups g) - 1)).
Proof.
  induction g as [i n ps gs IH] using pgroup_ind'. cbn [countGroups all_groups List.length].
  rewrite fold_u32. rewrite Nat.sub_succ, Nat.sub_0_r.
  assert (E : forall l, Forall (fun g => countGroups g = u32 (N.of_nat (List.length (all_groups g) - 1))) l ->
    u32 (N.of_nat (List.length l) + fold_right (fun x v => countGroups x + v) 0 l)
    = u32 (N.of_nat (List.length (flat_map all_groups l)))).
  { clear. induction l as [|g l IHl]; intro H; [reflexivity|]. inversion H as [|? ? Hg Hl]; subst.
    specialize (IHl Hl). simpl flat_map. rewrite app_length. cbn [List.length fold_right]. rewrite Hg.
    replace (N.of_nat (S (List.length l)) + (u32 (N.of_nat (List.length (all_groups g) - 1)) + fold_right (fun x v => countGroups x + v) 0 l))
      with (u32 (N.of_nat (List.length (all_groups g) - 1)) + (1 + (N.of_nat (List.length l) + fold_right (fun x v => countGroups x + v) 0 l))) by lia.
    rewrite u32_u32_l.
    replace (N.of_nat (List.length (all_groups g) - 1) + (1 + (N.of_nat (List.length l) + fold_right (fun x v => countGroups x + v) 0 l)))
      with ((N.of_nat (List.length (all_groups g) - 1) + 1) + (N.of_nat (List.length l) + fold_right (fun x v => countGroups x + v) 0 l)) by lia.
    rewrite <- u32_u32_r, IHl, u32_u32_r. f_equal.
    destruct g as [gi gn gp gg]. cbn [all_groups List.length]. lia. }
  apply E. exact IH.
Qed.

(* ---------- updates ---------- *)
Lemma set_nth_split {A} i (c : A) : forall l, nth_error l i = Some c ->
  exists a b, l = a ++ c :: b /\ List.length a = i /\ forall x, set_nth i x l = a ++ x :: b.
Proof.
  induction i as [|i IH]; intros [|y l] H; simpl in H; try discriminate.
  - injection H as ->. exists [], l. auto.
  - destruct (IH _ H) as (a & b & -> & <- & Hs). exists (y :: a), b. repeat split; auto.
    intro x. simpl. rewrite Hs. reflexivity.
Qed.

Lemma list_push path i n : forall g sub, subgroup path g = Some sub ->
  Permutation (listPasses (update_group path (push_pass i n) g)) ((i, n) :: listPasses g).
Proof.
  induction path as [|k path IH]; intros [gi gn gp gg] sub H; cbn [subgroup update_group g_groups] in *.
  - cbn [push_pass listPasses g_passes g_groups g_id g_name]. rewrite <- app_assoc. simpl.
    rewrite <- Permutation_middle. reflexivity.
  - destruct (nth_error gg k) as [c|] eqn:E; [|discriminate].
    destruct (set_nth_split _ _ _ E) as (a & b & -> & _ & Hs). cbn [listPasses g_passes g_id g_name].
    rewrite Hs. rewrite !flat_map_app. cbn [flat_map]. rewrite (IH c sub H). simpl.
    rewrite <- Permutation_middle, <- Permutation_middle. reflexivity.
Qed.

Lemma list_push_group path i n : forall g, listPasses (update_group path (push_group i n) g) = listPasses g.
Proof.
  induction path as [|k path IH]; intros [gi gn gp gg]; cbn [update_group g_groups].
  - cbn [push_group listPasses g_passes g_groups]. rewrite flat_map_app. simpl. rewrite app_nil_r. reflexivity.
  - destruct (nth_error gg k) as [c|] eqn:E; [|reflexivity].
    destruct (set_nth_split _ _ _ E) as (a & b & -> & _ & Hs). cbn [listPasses g_passes].
    rewrite Hs, !flat_map_app. cbn [flat_map]. rewrite IH. reflexivity.
Qed.

Lemma ids_push_group path i n : forall g sub, subgroup path g = Some sub ->
  Permutation (map g_id (all_groups (update_group path (push_group i n) g))) (i :: map g_id (all_groups g)).
Proof.
  induction path as [|k path IH]; intros [gi gn gp gg] sub H; cbn [subgroup update_group g_groups] in *.
  - cbn [push_group all_groups g_passes g_groups g_id g_name map]. rewrite flat_map_app, map_app. simpl.
    rewrite <- Permutation_middle, app_nil_r. apply perm_swap.
  - destruct (nth_error gg k) as [c|] eqn:E; [|discriminate].
    destruct (set_nth_split _ _ _ E) as (a & b & -> & _ & Hs). cbn [all_groups g_id g_passes g_name map].
    rewrite Hs, !flat_map_app, !map_app. cbn [flat_map]. rewrite !map_app, (IH c sub H). simpl.
    rewrite <- Permutation_middle. apply perm_swap.
Qed.

Lemma ids_push_pass path i n : forall g,
  map g_id (all_groups (update_group path (push_pass i n) g)) = map g_id (all_groups g).
Proof.
  induction path as [|k path IH]; intros [gi gn gp gg]; cbn [update_group g_groups].
  - reflexivity.
  - destruct (nth_error gg k) as [c|] eqn:E; [|reflexivity].
    destruct (set_nth_split _ _ _ E) as (a & b & -> & _ & Hs). cbn [all_groups g_id g_passes g_name map].
    rewrite Hs, !flat_map_app, !map_app. cbn [flat_map]. rewrite !map_app, IH. reflexivity.
Qed.

(* names are unique among the passes of one group and among the children of one group *)
Definition names_ok (g : pgroup) : Prop :=
  NoDup (map snd (g_passes g)) /\ NoDup (map g_name (g_groups g)).

Lemma update_name path f : (forall g, g_name (f g) = g_name g) -> forall g, g_name (update_group path f g) = g_name g.
Proof.
  intro Hf. destruct path as [|k path]; intro g; cbn [update_group]; [apply Hf|].
  destruct (nth_error (g_groups g) k); reflexivity.
Qed.

Lemma update_names_ok path f : (forall g, g_name (f g) = g_name g) ->
  forall g sub, subgroup path g = Some sub ->
  (Forall names_ok (all_groups sub) -> Forall names_ok (all_groups (f sub))) ->
  Forall names_ok (all_groups g) -> Forall names_ok (all_groups (update_group path f g)).
Proof.
  intro Hf. induction path as [|k path IH]; intros [gi gn gp gg] sub H Hsub Hok; cbn [subgroup update_group g_groups] in *.
  - injection H as <-. auto.
  - destruct (nth_error gg k) as [c|] eqn:E; [|discriminate].
    destruct (set_nth_split _ _ _ E) as (a & b & -> & _ & Hs).
    cbn [all_groups g_id g_name g_passes] in *. rewrite Hs.
    rewrite flat_map_app in *. cbn [flat_map] in *.
    inversion Hok as [|? ? Hroot Hrest]; subst. rewrite !Forall_app in Hrest.
    destruct Hrest as (H1 & H2 & H3). constructor.
    + unfold names_ok in *. cbn [g_passes g_groups] in *. rewrite !map_app in *. cbn [map] in *.
      rewrite (update_name path f Hf). exact Hroot.
    + rewrite !Forall_app. split; [exact H1|]. split; [|exact H3]. eapply IH; eauto.
Qed.

Lemma find_pos_None {A} (f : A -> bool) l : find_pos f l = None -> forall x, In x l -> f x = false.
Proof.
  induction l as [|y l IH]; simpl; intros H x Hx; [destruct Hx|].
  destruct (f y) eqn:E; [discriminate|]. destruct (find_pos f l); [discriminate|].
  destruct Hx as [<-|Hx]; auto.
Qed.

Lemma find_pos_Some {A} (f : A -> bool) l k : find_pos f l = Some k ->
  exists a x b, l = a ++ x :: b /\ List.length a = k /\ f x = true /\ forall y, In y a -> f y = false.
Proof.
  revert k. induction l as [|y l IH]; simpl; intros k H; [discriminate|].
  destruct (f y) eqn:E.
  - injection H as <-. exists [], y, l. repeat split; auto. intros ? [].
  - destruct (find_pos f l) as [k'|]; [|discriminate]. injection H as <-.
    destruct (IH _ eq_refl) as (a & x & b & -> & <- & Hx & Ha).
    exists (y :: a), x, b. repeat split; auto. intros z [<-|Hz]; auto.
Qed.

Lemma NoDup_snoc {A} (l : list A) x : NoDup l -> ~ In x l -> NoDup (l ++ [x]).
Proof. intros H Hx. apply NoDup_rev in H. rewrite <- rev_involutive. apply NoDup_rev. rewrite rev_app_distr. simpl. constructor; auto. rewrite <- in_rev. exact Hx. Qed.

Lemma hasPass_spec g n : hasPass g n = true <-> In n (map snd (g_passes g)).
Proof.
  unfold hasPass. rewrite existsb_exists. split.
  - intros (p & Hp & E). apply String.eqb_eq in E. subst n. apply in_map. exact Hp.
  - intro H. apply in_map_iff in H. destruct H as (p & <- & Hp). exists p. split; [exact Hp|apply String.eqb_refl].
Qed.

Lemma step_names_ok g o : Forall names_ok (all_groups g) -> Forall names_ok (all_groups (fst (gstep g o))).
Proof.
  intro Hok. destruct o as [path name|path name]; unfold gstep.
  - destruct (subgroup path g) as [sub|] eqn:Es; [|exact Hok].
    destruct (hasPass sub name) eqn:Eh; [exact Hok|]. cbn [fst].
    eapply update_names_ok; eauto. destruct sub as [si sn sp sg].
    intro H. cbn [all_groups push_pass g_id g_name g_passes g_groups] in *.
    inversion H as [|? ? [Hr1 Hr2] Hrest]; subst. constructor; [|exact Hrest].
    split; [|exact Hr2]. cbn [g_passes]. rewrite map_app. simpl. apply NoDup_snoc; [exact Hr1|].
    intro Hin. rewrite (proj2 (hasPass_spec (Grp si sn sp sg) name) Hin) in Eh. discriminate.
  - destruct (subgroup path g) as [sub|] eqn:Es; [|exact Hok].
    destruct (find_pos _ (g_groups sub)) eqn:Ef; [exact Hok|]. cbn [fst].
    eapply update_names_ok; eauto. destruct sub as [si sn sp sg].
    intro H. cbn [all_groups push_group g_id g_name g_passes g_groups] in *.
    inversion H as [|? ? [Hr1 Hr2] Hrest]; subst. constructor.
    + split; [exact Hr1|]. cbn [g_groups]. rewrite map_app. simpl. apply NoDup_snoc; [exact Hr2|].
      intro Hin. apply in_map_iff in Hin. destruct Hin as (c & En & Hc).
      pose proof (find_pos_None _ _ Ef c Hc) as Hne. simpl in Hne. rewrite En, String.eqb_refl in Hne. discriminate.
    + rewrite flat_map_app. apply Forall_app. split; [exact Hrest|]. simpl. constructor; [|constructor].
      split; constructor.
Qed.

Lemma one_to_S n : one_to (S n) = one_to n ++ [N.of_nat (S n)].
Proof. unfold one_to. rewrite seq_S, map_app. reflexivity. Qed.

(* ---------- histories ---------- *)
Lemma grun_app g o1 : forall o2, grun g (o1 ++ o2) =
  (fst (grun (fst (grun g o1)) o2), snd (grun g o1) ++ snd (grun (fst (grun g o1)) o2)).
Proof.
  revert g. induction o1 as [|o o1 IH]; intros g o2.
  - simpl. destruct (grun g o2); reflexivity.
  - cbn [app grun]. destruct (gstep g o) as [g' x]. rewrite IH.
    destruct (grun g' o1) as [g1 xs1]. cbn [fst snd]. destruct (grun g1 o2); reflexivity.
Qed.

Lemma grun_length ops : forall g, List.length (snd (grun g ops)) = List.length ops.
Proof.
  induction ops as [|o ops IH]; intro g; simpl; [reflexivity|].
  destruct (gstep g o) as [g' x]. specialize (IH g'). destruct (grun g' ops). simpl in *. congruence.
Qed.

Definition hist_inv (st : pgroup * list gres) : Prop :=
  Permutation (listPasses (fst st)) (created_passes (snd st)) /\
  map fst (created_passes (snd st)) = one_to (List.length (created_passes (snd st))) /\
  Permutation (map g_id (all_groups (fst st))) (0 :: one_to (created_groups (snd st))) /\
  Forall names_ok (all_groups (fst st)).

Lemma hist_step g rs o : N.of_nat (S (List.length rs)) < 2 ^ 32 ->
  hist_inv (g, rs) -> hist_inv (fst (gstep g o), rs ++ [snd (gstep g o)]).
Proof.
  intros Hb (I1 & I2 & I3 & I4). cbn [fst snd] in *.
  assert (Hlen : (List.length (created_passes rs) <= List.length rs)%nat).
  { clear. induction rs as [|[] rs IH]; simpl; lia. }
  assert (Hleng : (created_groups rs <= List.length rs)%nat).
  { clear. unfold created_groups. induction rs as [|r rs IH]; simpl; [lia|]. destruct r as [| | p []|]; simpl; lia. }
  split; [|split; [|split; [|apply step_names_ok; exact I4]]].
  - cbn [fst snd]. unfold created_passes in *. rewrite flat_map_app. cbn [flat_map]. rewrite app_nil_r.
    destruct o as [path name|path name]; unfold gstep.
    + destruct (subgroup path g) as [sub|] eqn:Es; [|cbn; rewrite app_nil_r; exact I1].
      destruct (hasPass sub name); [cbn; rewrite app_nil_r; exact I1|]. cbn [fst snd].
      rewrite (list_push _ _ _ _ _ Es), I1. apply Permutation_cons_append.
    + destruct (subgroup path g) as [sub|] eqn:Es; [|cbn; rewrite app_nil_r; exact I1].
      destruct (find_pos _ (g_groups sub)); cbn [fst snd]; rewrite app_nil_r; [exact I1|].
      rewrite list_push_group. exact I1.
  - cbn [fst snd]. assert (Hsame : forall r, flat_map (fun r => match r with NewPass i n => [(i, n)] | _ => [] end) [r] = [] ->
       map fst (created_passes (rs ++ [r])) = one_to (List.length (created_passes (rs ++ [r])))).
    { intros r Hr. unfold created_passes in *. rewrite flat_map_app, Hr, app_nil_r. exact I2. }
    destruct o as [path name|path name]; unfold gstep.
    + destruct (subgroup path g) as [sub|] eqn:Es; [|apply Hsame; reflexivity].
      destruct (hasPass sub name); [apply Hsame; reflexivity|]. cbn [fst snd].
      unfold created_passes in *. rewrite flat_map_app. simpl flat_map at 2 4. rewrite map_app, app_length.
      cbn [map fst List.length]. rewrite Nat.add_1_r, one_to_S, I2. f_equal. f_equal.
      rewrite countPasses_list, (Permutation_length I1).
      rewrite u32_u32_l. rewrite u32_small; [lia|lia].
    + destruct (subgroup path g) as [sub|] eqn:Es; [|apply Hsame; reflexivity].
      destruct (find_pos _ (g_groups sub)); cbn [fst snd]; apply Hsame; reflexivity.
  - cbn [fst snd].
    assert (Hsame : forall r, filter (fun r => match r with GroupRef _ true => true | _ => false end) [r] = [] ->
       created_groups (rs ++ [r]) = created_groups rs).
    { intros r Hr. unfold created_groups in *. rewrite filter_app, app_length, Hr. simpl. lia. }
    destruct o as [path name|path name]; unfold gstep.
    + destruct (subgroup path g) as [sub|] eqn:Es; [|rewrite Hsame by reflexivity; exact I3].
      destruct (hasPass sub name); cbn [fst snd]; rewrite Hsame by reflexivity; [exact I3|].
      rewrite ids_push_pass. exact I3.
    + destruct (subgroup path g) as [sub|] eqn:Es; [|rewrite Hsame by reflexivity; exact I3].
      destruct (find_pos _ (g_groups sub)); cbn [fst snd]; [rewrite Hsame by reflexivity; exact I3|].
      rewrite (ids_push_group _ _ _ _ _ Es), I3.
      replace (created_groups (rs ++ [GroupRef (path ++ [List.length (g_groups sub)]) true])) with (S (created_groups rs)).
      2:{ unfold created_groups. rewrite filter_app, app_length. simpl. lia. }
      rewrite one_to_S.
      assert (Hn : List.length (all_groups g) = S (created_groups rs)).
      { rewrite <- (map_length g_id), (Permutation_length I3). simpl. unfold one_to. rewrite map_length, seq_length. reflexivity. }
      rewrite countGroups_list, Hn, u32_u32_l, u32_small by lia.
      replace (N.of_nat (S (created_groups rs) - 1) + 1) with (N.of_nat (S (created_groups rs))) by lia.
      rewrite perm_swap. constructor. apply Permutation_cons_append.
Qed.

Lemma hist_all name ops : N.of_nat (List.length ops) < 2 ^ 32 -> hist_inv (grun (ginit name) ops).
Proof.
  induction ops as [|o ops IH] using rev_ind; intro Hb.
  - simpl. repeat split; simpl; auto. constructor; [|constructor]. split; constructor.
  - rewrite app_length in Hb. simpl in Hb.
    rewrite grun_app. cbn [grun].
    assert (IH' : hist_inv (grun (ginit name) ops)) by (apply IH; lia).
    destruct (grun (ginit name) ops) as [g rs] eqn:E. cbn [fst snd].
    assert (Hl : List.length rs = List.length ops).
    { replace rs with (snd (grun (ginit name) ops)) by (rewrite E; reflexivity). apply grun_length. }
    pose proof (hist_step g rs o) as Hst. destruct (gstep g o) as [g' x]. cbn [fst snd] in *. apply Hst; [|exact IH'].
    rewrite Hl. lia.
Qed.

Lemma one_to_NoDup n : NoDup (one_to n).
Proof. unfold one_to. apply FinFun.Injective_map_NoDup; [intros x y H; lia|apply seq_NoDup]. Qed.

Lemma subgroup_all path : forall g sub, subgroup path g = Some sub -> In sub (all_groups g).
Proof.
  induction path as [|k path IH]; intros [gi gn gp gg] sub H; cbn [subgroup g_groups] in H.
  - injection H as <-. left; reflexivity.
  - destruct (nth_error gg k) as [c|] eqn:E; [|discriminate]. cbn [all_groups]. right.
    apply in_flat_map. exists c. split; [eapply nth_error_In; eauto|]. apply IH. exact H.
Qed.

(* C06 *)
Lemma pass_ids_dense name ops : N.of_nat (List.length ops) < 2 ^ 32 ->
  let st := grun (ginit name) ops in
  map fst (created_passes (snd st)) = one_to (List.length (created_passes (snd st))) /\
  NoDup (map fst (listPasses (fst st))) /\
  (forall path sub, subgroup path (fst st) = Some sub -> NoDup (map snd (g_passes sub))).
Proof.
  intros Hb st. destruct (hist_all name ops Hb) as (I1 & I2 & I3 & I4). fold st in I1, I2, I3, I4.
  split; [exact I2|]. split.
  - apply (Permutation_NoDup (l := map fst (created_passes (snd st)))).
    + apply Permutation_map. apply Permutation_sym. exact I1.
    + rewrite I2. apply one_to_NoDup.
  - intros path sub Hs. rewrite Forall_forall in I4. apply (I4 sub). eapply subgroup_all; eauto.
Qed.

Lemma duplicate_rejected g path name sub : subgroup path g = Some sub ->
  (In name (map snd (g_passes sub)) -> gstep g (CreatePass path name) = (g, DuplicateName)) /\
  (~ In name (map snd (g_passes sub)) ->
     exists id, snd (gstep g (CreatePass path name)) = NewPass id name).
Proof.
  intro Hs. unfold gstep. rewrite Hs. split; intro H.
  - apply hasPass_spec in H. rewrite H. reflexivity.
  - destruct (hasPass sub name) eqn:E.
    + apply hasPass_spec in E. contradiction.
    + eexists. reflexivity.
Qed.

(* C07 *)
Lemma subgroup_snoc path k : forall g sub, subgroup path g = Some sub ->
  subgroup (path ++ [k]) g = nth_error (g_groups sub) k.
Proof.
  induction path as [|i path IH]; intros g sub H; cbn [app subgroup] in *.
  - injection H as <-. destruct (nth_error (g_groups g) k); reflexivity.
  - destruct (nth_error (g_groups g) i); [|discriminate]. apply IH. exact H.
Qed.

Lemma subgroup_update path f : forall g sub, subgroup path g = Some sub ->
  subgroup path (update_group path f g) = Some (f sub).
Proof.
  induction path as [|i path IH]; intros g sub H; cbn [subgroup update_group] in *.
  - injection H as <-. reflexivity.
  - destruct (nth_error (g_groups g) i) as [c|] eqn:E; [|discriminate]. cbn [g_groups].
    destruct (set_nth_split _ _ _ E) as (a & b & Eg & Hl & Hs).
    rewrite Hs, nth_error_app2 by lia. rewrite Hl, Nat.sub_diag. simpl. apply IH. exact H.
Qed.

Lemma create_group_spec g path name sub : subgroup path g = Some sub ->
  exists k c, snd (gstep g (CreateGroup path name)) = GroupRef (path ++ [k])
        (if existsb (fun c => String.eqb (g_name c) name) (g_groups sub) then false else true) /\
    subgroup (path ++ [k]) (fst (gstep g (CreateGroup path name))) = Some c /\ g_name c = name /\
    (In name (map g_name (g_groups sub)) -> fst (gstep g (CreateGroup path name)) = g) /\
    (~ In name (map g_name (g_groups sub)) ->
       k = List.length (g_groups sub) /\ g_passes c = [] /\ g_groups c = [] /\
       g_id c = u32 (countGroups g + 1)).
Proof.
  intro Hs. unfold gstep. rewrite Hs.
  destruct (find_pos _ (g_groups sub)) as [k|] eqn:Ef; cbn [fst snd].
  - destruct (find_pos_Some _ _ _ Ef) as (a & x & b & Eg & Hl & Hx & _).
    apply String.eqb_eq in Hx.
    exists k, x. rewrite (subgroup_snoc _ _ _ _ Hs).
    assert (Hin : In name (map g_name (g_groups sub))).
    { rewrite Eg. rewrite map_app. simpl. rewrite Hx. apply in_or_app. right; left; reflexivity. }
    repeat split; auto; try contradiction.
    + replace (existsb _ _) with true; [reflexivity|]. symmetry. apply existsb_exists. exists x.
      split; [rewrite Eg; apply in_or_app; right; left; reflexivity|]. apply String.eqb_eq. exact Hx.
    + rewrite Eg, nth_error_app2 by lia. rewrite Hl, Nat.sub_diag. reflexivity.
  - exists (List.length (g_groups sub)), (Grp (u32 (countGroups g + 1)) name [] []).
    assert (Hnin : ~ In name (map g_name (g_groups sub))).
    { intro Hin. apply in_map_iff in Hin. destruct Hin as (c & En & Hc).
      pose proof (find_pos_None _ _ Ef c Hc) as Hne. simpl in Hne. rewrite En, String.eqb_refl in Hne. discriminate. }
    repeat split; auto; try contradiction.
    + replace (existsb _ _) with false; [reflexivity|]. symmetry. apply not_true_is_false. intro Hex.
      apply existsb_exists in Hex. destruct Hex as (c & Hc & E). apply String.eqb_eq in E. apply Hnin. rewrite <- E. apply in_map. exact Hc.
    + rewrite (subgroup_snoc path _ _ (push_group (u32 (countGroups g + 1)) name sub)) by (apply subgroup_update; exact Hs).
      cbn [push_group g_groups]. rewrite nth_error_app2 by lia. rewrite Nat.sub_diag. reflexivity.
Qed.

Lemma group_ids_unique name ops : N.of_nat (List.length ops) < 2 ^ 32 ->
  let st := grun (ginit name) ops in
  Permutation (map g_id (all_groups (fst st))) (0 :: one_to (created_groups (snd st))) /\
  NoDup (map g_id (all_groups (fst st))) /\
  (forall path sub, subgroup path (fst st) = Some sub -> NoDup (map g_name (g_groups sub))).
Proof.
  intros Hb st. destruct (hist_all name ops Hb) as (I1 & I2 & I3 & I4). fold st in I1, I2, I3, I4.
  split; [exact I3|]. split.
  - apply (Permutation_NoDup (Permutation_sym I3)). constructor; [|apply one_to_NoDup].
    unfold one_to. intro H. apply in_map_iff in H. destruct H as (x & E & Hx). apply in_seq in Hx. lia.
  - intros path sub Hs. rewrite Forall_forall in I4. apply (I4 sub). eapply subgroup_all; eauto.
Qed.

(* C08 *)
Lemma list_is_created name ops : N.of_nat (List.length ops) < 2 ^ 32 ->
  let st := grun (ginit name) ops in
  Permutation (listPasses (fst st)) (created_passes (snd st)) /\
  NoDup (listPasses (fst st)) /\
  countPasses (fst st) = N.of_nat (List.length (created_passes (snd st))).
Proof.
  intros Hb st. destruct (hist_all name ops Hb) as (I1 & I2 & I3 & I4). fold st in I1, I2, I3, I4.
  split; [exact I1|]. split.
  - apply (NoDup_map_inv fst). apply (pass_ids_dense name ops Hb).
  - rewrite countPasses_list, (Permutation_length I1). apply u32_small.
    assert (Hl : forall g, List.length (snd (grun g ops)) = List.length ops).
    { clear. induction ops as [|o ops IH]; intro g; simpl; [reflexivity|].
      destruct (gstep g o) as [g' x]. specialize (IH g'). destruct (grun g' ops). simpl in *. congruence. }
    assert (Hle : forall rs, (List.length (created_passes rs) <= List.length rs)%nat).
    { clear. induction rs as [|[] rs IH]; simpl; lia. }
    specialize (Hle (snd st)). unfold st in *. rewrite Hl in Hle. lia.
Qed.
