(* The texts written from the streams (C75, C76). *)
From Verif Require Import Spec_Dot Proof_Dot Proof_Dot2 Proof_Dot3.
From Coq Require Import Lia.
Local Open Scope N_scope.

(* The map of texts. *)
Lemma dhas_iff k m : dhas k m = true <-> In k (map fst m).
Proof.
  unfold dhas. rewrite existsb_exists, in_map_iff. split; intros (e & H1 & H2).
  - exists e. apply String.eqb_eq in H2. split; assumption.
  - exists e. split; [exact H2|apply String.eqb_eq, H1].
Qed.
Lemma dnew_perm k l m : Permutation (dnew k l m) ((k, l) :: m).
Proof.
  induction m as [|[k' l'] m IH]; [reflexivity|]. cbn [dnew]. destruct (String.compare k k'); try reflexivity.
  rewrite IH. apply perm_swap.
Qed.
Lemma find_key {A} (m : list (string * A)) k a : NoDup (map fst m) -> In (k, a) m -> find (fun e => String.eqb (fst e) k) m = Some (k, a).
Proof.
  induction m as [|[k' a'] m IH]; intros N H; [destruct H|]. cbn [find fst]. cbn [map fst] in N. apply NoDup_cons_iff in N. destruct N as [N1 N2].
  destruct (String.eqb_spec k' k) as [->|E].
  - destruct H as [H|H]; [congruence|]. exfalso. apply N1. exact (in_map fst m (k, a) H).
  - destruct H as [H|H]; [injection H as -> _; congruence|apply IH; assumption].
Qed.
Lemma dget_in m k l : NoDup (map fst m) -> In (k, l) m -> dget k m = l.
Proof. intros N H. unfold dget. rewrite (find_key m k l N H). reflexivity. Qed.
Lemma dget_out m k : ~ In k (map fst m) -> dget k m = [].
Proof.
  intro H. unfold dget. destruct (find (fun e => String.eqb (fst e) k) m) as [[k' l]|] eqn:E; [|reflexivity]. exfalso. apply H.
  apply find_some in E. destruct E as [E1 E2]. apply String.eqb_eq in E2. cbn [fst] in E2. subst. exact (in_map fst m (k, l) E1).
Qed.
Lemma dput_keys k l m : NoDup (map fst m) -> NoDup (map fst (dput k l m)).
Proof.
  intro N. unfold dput. destruct (dhas k m) eqn:E.
  - rewrite map_map. erewrite map_ext; [exact N|]. intro e. destruct (String.eqb (fst e) k); reflexivity.
  - apply (Permutation_NoDup (l := k :: map fst m)).
    + symmetry. exact (Permutation_map fst (dnew_perm k l m)).
    + constructor; [|exact N]. intro H. apply dhas_iff in H. congruence.
Qed.
Lemma dput_same k l m : NoDup (map fst m) -> dget k (dput k l m) = (dget k m ++ l)%list.
Proof.
  intro N. pose proof (dput_keys k l m N) as N'. unfold dput in *. destruct (dhas k m) eqn:E.
  - apply dhas_iff in E. apply in_map_iff in E. destruct E as ([k' t] & E1 & E2). cbn [fst] in E1. subst k'. rewrite (dget_in m k t N E2).
    apply dget_in; [exact N'|]. apply in_map_iff. exists (k, t). cbn [fst snd]. rewrite String.eqb_refl. split; [reflexivity|exact E2].
  - rewrite (dget_out m k); [|intro H; apply dhas_iff in H; congruence]. apply dget_in; [exact N'|]. apply (Permutation_in _ (Permutation_sym (dnew_perm k l m))). left. reflexivity.
Qed.
Lemma dput_other k k' l m : NoDup (map fst m) -> k' <> k -> dget k' (dput k l m) = dget k' m.
Proof.
  intros N Hk. pose proof (dput_keys k l m N) as N'. destruct (dhas k' m) eqn:E.
  - apply dhas_iff in E. apply in_map_iff in E. destruct E as ([k0 t] & E1 & E2). cbn [fst] in E1. subst k0. rewrite (dget_in m k' t N E2).
    apply dget_in; [exact N'|]. unfold dput. destruct (dhas k m).
    + apply in_map_iff. exists (k', t). cbn [fst snd]. apply String.eqb_neq in Hk. rewrite Hk. split; [reflexivity|exact E2].
    + apply (Permutation_in _ (Permutation_sym (dnew_perm k l m))). right. exact E2.
  - assert (H0 : ~ In k' (map fst m)) by (intro H; apply dhas_iff in H; congruence). rewrite (dget_out m k' H0). apply dget_out. intro H. apply H0. unfold dput in H. destruct (dhas k m).
    + rewrite map_map in H. assert (Z : map (fun e : string * list line => fst (if String.eqb (fst e) k then (fst e, (snd e ++ l)%list) else e)) m = map fst m).
      { apply map_ext. intro e. destruct (String.eqb (fst e) k); reflexivity. }
      rewrite Z in H. exact H.
    + apply (Permutation_in _ (Permutation_map fst (dnew_perm k l m))) in H. destruct H as [H|H]; [cbn in H; congruence|exact H].
Qed.

(* The tree of the groups. *)
Fixpoint tree (s : streams) (d : nat) (g : gpath) : list gpath :=
  match d with O => [] | S d => g :: flat_map (tree s d) (st_children s g) end.
Lemma children_iff s g c : In c (st_children s g) <-> In c (keys s) /\ exists x, c = x :: g.
Proof.
  unfold st_children, keys. rewrite !in_map_iff. split.
  - intros (e & <- & H). apply filter_In in H. destruct H as [H1 H2]. split; [exists e; auto|]. destruct (fst e) as [|x p]; [discriminate|]. apply path_eqb_eq in H2. subst. eauto.
  - intros [(e & E1 & E2) [x E3]]. exists e. split; [exact E1|]. apply filter_In. split; [exact E2|]. destruct e as [k d]. cbn [fst] in *. subst. apply path_eqb_refl.
Qed.
Lemma nodup_map_filter {A B} (f : A -> B) (P : A -> bool) l : NoDup (map f l) -> NoDup (map f (filter P l)).
Proof.
  induction l as [|e l IH]; intro N; [constructor|]. cbn [map] in N. apply NoDup_cons_iff in N. destruct N as [N1 N2]. cbn [filter]. destruct (P e); [|apply IH, N2].
  cbn [map]. constructor; [|apply IH, N2]. intro H. apply N1. apply in_map_iff in H. destruct H as (e' & E & H). apply filter_In in H. rewrite <- E. apply in_map, H.
Qed.
Lemma children_nodup s g : NoDup (keys s) -> NoDup (st_children s g).
Proof. apply nodup_map_filter. Qed.
Lemma filter_or_perm {A} (P Q : A -> bool) l : (forall x, In x l -> P x = true -> Q x = false) -> Permutation (filter (fun x => orb (P x) (Q x)) l) (filter P l ++ filter Q l).
Proof.
  induction l as [|x l IH]; intro H; [reflexivity|]. specialize (IH (fun y Hy => H y (or_intror Hy))). pose proof (H x (or_introl eq_refl)) as Hx. cbn [filter].
  destruct (P x) eqn:EP; [rewrite (Hx eq_refl)|destruct (Q x)]; cbn [orb app]; [constructor; exact IH| |exact IH].
  rewrite IH. apply Permutation_middle.
Qed.
Lemma siblings c c' g h : (exists x, c = x :: g) -> (exists x, c' = x :: g) -> isIn c h = true -> isIn c' h = true -> c = c'.
Proof.
  intros [x ->] [y ->] H1 H2. apply isIn_iff in H1, H2. destruct H1 as [q ->], H2 as [q' H]. revert q' H. induction q as [|z q IH]; intros [|z' q'] H; cbn [app] in H.
  - exact H.
  - apply (f_equal (@List.length N)) in H. cbn in H. rewrite app_length in H. cbn in H. lia.
  - apply (f_equal (@List.length N)) in H. cbn in H. rewrite app_length in H. cbn in H. lia.
  - injection H as _ H. exact (IH q' H).
Qed.
Lemma children_perm (ks : list gpath) g cs : NoDup cs -> (forall c, In c cs -> exists x, c = x :: g) ->
  Permutation (flat_map (fun c => filter (isIn c) ks) cs) (filter (fun h => existsb (fun c => isIn c h) cs) ks).
Proof.
  induction cs as [|c cs IH]; intros N H.
  - cbn. induction ks as [|k ks IHk]; [reflexivity|exact IHk].
  - apply NoDup_cons_iff in N. destruct N as [N1 N2]. cbn [flat_map existsb]. rewrite IH; [|exact N2|intros x Hx; apply H; right; exact Hx]. symmetry. apply filter_or_perm.
    intros h _ Hc. apply Bool.not_true_iff_false. intro He. apply existsb_exists in He. destruct He as (c' & Hc' & Hi). apply N1.
    rewrite (siblings c c' g h (H c (or_introl eq_refl)) (H c' (or_intror Hc')) Hc Hi). exact Hc'.
Qed.
Lemma tree_perm s : st_ok s -> forall d g, In g (keys s) -> (forall h, In h (keys s) -> isIn g h = true -> (List.length h < List.length g + d)%nat) ->
  Permutation (tree s d g) (filter (isIn g) (keys s)).
Proof.
  intro O. induction d as [|d IH]; intros g Hg Hd.
  - specialize (Hd g Hg). assert (isIn g g = true) by (apply isIn_iff; exists []; reflexivity). specialize (Hd H). lia.
  - cbn [tree].
    assert (E : Permutation (flat_map (tree s d) (st_children s g)) (flat_map (fun c => filter (isIn c) (keys s)) (st_children s g))).
    { assert (Hc : forall c, In c (st_children s g) -> Permutation (tree s d c) (filter (isIn c) (keys s))).
      { intros c Hc. apply children_iff in Hc. destruct Hc as [Hk [x ->]]. apply IH; [exact Hk|]. intros h Hh Hi. cbn [List.length].
        assert (isIn g h = true). { apply isIn_iff in Hi. destruct Hi as [q ->]. apply isIn_iff. exists (q ++ [x])%list. rewrite <- app_assoc. reflexivity. }
        specialize (Hd h Hh H). lia. }
      induction (st_children s g) as [|c cs IHc]; [reflexivity|]. cbn [flat_map]. apply Permutation_app; [apply Hc; left; reflexivity|]. apply IHc. intros c' Hc'. apply Hc. right. exact Hc'. }
    rewrite E. rewrite (children_perm (keys s) g (st_children s g) (children_nodup s g (so_nodup s O))); [|intros c Hc; apply children_iff in Hc; apply Hc].
    (* filter (isIn g) = g and those under a child *)
    assert (F : forall h, In h (keys s) -> isIn g h = orb (path_eqb h g) (existsb (fun c => isIn c h) (st_children s g))).
    { intros h Hh. apply Bool.eq_true_iff_eq. rewrite Bool.orb_true_iff, path_eqb_eq, existsb_exists, isIn_iff. split.
      - intros [q ->]. { destruct q as [|y q0]; [left; reflexivity|right]. destruct (exists_last (l := y :: q0) ltac:(discriminate)) as (q' & x & E'). rewrite E' in *. rewrite <- app_assoc in Hh |- *. cbn [app] in *.
          exists (x :: g). split; [apply children_iff; split; [apply (suffix_key s O q'), Hh|eauto]|apply isIn_iff; exists q'; reflexivity]. }
      - intros [->|(c & Hc & Hi)]; [exists []; reflexivity|]. apply children_iff in Hc. destruct Hc as [_ [x ->]]. apply isIn_iff in Hi. destruct Hi as [q ->]. exists (q ++ [x])%list. rewrite <- app_assoc. reflexivity. }
    rewrite (filter_ext_in _ _ _ F). rewrite filter_or_perm.
    + rewrite <- (app_nil_l (filter _ _)) at 1. change (g :: [] ++ ?x) with ([g] ++ x). apply Permutation_app_tail.
      assert (G : filter (fun x => path_eqb x g) (keys s) = [g]).
      { pose proof (so_nodup s O) as N. clear - N Hg. induction (keys s) as [|k ks IH]; [destruct Hg|]. apply NoDup_cons_iff in N. destruct N as [N1 N2]. cbn [filter].
        destruct (path_eqb k g) eqn:E.
        - apply path_eqb_eq in E. subst k. f_equal. clear - N1. induction ks as [|k ks IH]; [reflexivity|]. cbn [filter]. destruct (path_eqb k g) eqn:E.
          + apply path_eqb_eq in E. subst. exfalso. apply N1. left. reflexivity.
          + apply IH. intro H. apply N1. right. exact H.
        - apply IH; [|exact N2]. destruct Hg as [Hg|Hg]; [|exact Hg]. subst. rewrite path_eqb_refl in E. discriminate. }
      rewrite G. reflexivity.
    + intros h _ Hh. apply path_eqb_eq in Hh. subst h. apply Bool.not_true_iff_false. intro He. apply existsb_exists in He. destruct He as (c & Hc & Hi). apply children_iff in Hc. destruct Hc as [_ [x ->]].
      apply isIn_iff in Hi. destruct Hi as [q Hq]. apply (f_equal (@List.length N)) in Hq. rewrite app_length in Hq. cbn in Hq. lia.
Qed.
Definition deeper (n : nat) (e : gpath * sdata) : nat := Nat.max n (List.length (fst e)).
Lemma deeper_le s : forall n, (n <= fold_left deeper s n)%nat /\ forall h, In h (map fst s) -> (List.length h <= fold_left deeper s n)%nat.
Proof.
  induction s as [|e s IH]; intro n; [split; [apply le_n|intros h []]|]. cbn [fold_left map]. destruct (IH (deeper n e)) as [A B]. unfold deeper in A at 1.
  split; [lia|]. intros h [<-|H]; [lia|apply B, H].
Qed.
Lemma max_depth_le s : forall h, In h (keys s) -> (List.length h <= max_depth s)%nat.
Proof. intros h H. exact (proj2 (deeper_le s 0%nat) h H). Qed.
Lemma whole_tree s : st_ok s -> Permutation (tree s (S (max_depth s)) []) (keys s).
Proof.
  intro O. rewrite (tree_perm s O); [|exact (so_root s O)|].
  - replace (filter (isIn []) (keys s)) with (keys s); [reflexivity|]. clear. induction (keys s) as [|k ks IH]; [reflexivity|]. cbn [filter]. assert (E : isIn [] k = true) by (apply isIn_iff; exists k; rewrite app_nil_r; reflexivity). rewrite E. f_equal. exact IH.
  - intros h Hh _. cbn [List.length]. pose proof (max_depth_le s h Hh). lia.
Qed.
Lemma tree_in s : st_ok s -> forall d g h, In g (keys s) -> In h (tree s d g) -> In h (keys s) /\ isIn g h = true.
Proof.
  intro O. induction d as [|d IH]; intros g h Hg H; [destruct H|]. cbn [tree] in H. destruct H as [<-|H].
  - split; [exact Hg|]. apply isIn_iff. exists []. reflexivity.
  - apply in_flat_map in H. destruct H as (c & Hc & H). apply children_iff in Hc. destruct Hc as [Hk [x ->]]. destruct (IH _ h Hk H) as [A B]. split; [exact A|].
    apply isIn_iff in B. destruct B as [q ->]. apply isIn_iff. exists (q ++ [x])%list. rewrite <- app_assoc. reflexivity.
Qed.
