(* The texts written from the streams, continued (C75, C76). *)
From Verif Require Import Spec_Dot Proof_Dot Proof_Dot2 Proof_Dot3 Proof_Dot4.
From Coq Require Import Lia.
Local Open Scope N_scope.

Definition plainb (l : line) : bool := match l with LNode _ | LEdge _ _ _ => true | _ => false end.
Lemma arrows_plain l : arrows (filter plainb l) = arrows l.
Proof. induction l as [|x l IH]; [reflexivity|]. destruct x; cbn [filter plainb]; try exact IH. cbn [arrows flat_map]. f_equal. exact IH. Qed.
Lemma declared_plain n l : declared n (filter plainb l) = declared n l.
Proof.
  unfold declared. induction l as [|x l IH]; [reflexivity|]. destruct x; cbn [filter plainb]; try exact IH. destruct (String.eqb name n); cbn [List.length]; congruence.
Qed.
Lemma plain_all l : Forall plain l -> filter plainb l = l.
Proof. induction 1 as [|x l H _ IH]; [reflexivity|]. destruct x; try destruct H; cbn [filter plainb]; f_equal; exact IH. Qed.
Lemma wf_app a b : well_formed a -> well_formed b -> well_formed (a ++ b).
Proof.
  intros Ha Hb. induction Ha as [|l r Hl _ IH|o i r Ho Hi _ _ IH]; [exact Hb|cbn [app]; constructor; assumption|].
  cbn [app]. rewrite <- app_assoc. cbn [app]. constructor; assumption.
Qed.
Lemma wf_plain l : Forall plain l -> well_formed l.
Proof. induction 1 as [|x l H _ IH]; constructor; assumption. Qed.
Lemma wf_wrap o l : (match o with LDigraph _ | LCluster _ _ => True | _ => False end) -> well_formed l -> well_formed (o :: l ++ [LClose])%list.
Proof. intros Ho Hl. apply (wf_block o l []); [exact Ho|exact Hl|constructor]. Qed.

Section Write.
  Context (nm : names) (cf : config) (s : streams).
  Definition header (g : gpath) : list line := match g with [] => [LDigraph EmptyString] | _ => if cf_groups cf then [LCluster g (group_name nm g)] else [] end.
  Definition footer (g : gpath) (global : list line) : list line := match g with [] => (global ++ [LClose])%list | _ => if cf_groups cf then [LClose] else [] end.
  Fixpoint content (d : nat) (g : gpath) (global : list line) : list line :=
    match d with
    | O => []
    | S d => header g ++ flat_map (fun c => content d c []) (st_children s g) ++ st_lines s g ++ footer g global
    end%list.
  Hypothesis ok : st_ok s.
  Hypothesis inj : forall g h, In g (keys s) -> In h (keys s) -> group_name nm g = group_name nm h -> g = h.

  (* Not split: the text of a group has the texts of its children. *)
  Lemma write_whole : cf_split cf = false -> forall d g global m, In g (keys s) -> NoDup (map fst m) ->
    (forall h, In h (keys s) -> isIn g h = true -> dget (group_name nm h) m = []) ->
    NoDup (map fst (st_write nm d cf s g global m)) /\
    dget (group_name nm g) (st_write nm d cf s g global m) = content d g global /\
    (forall k, (forall h, In h (keys s) -> isIn g h = true -> k <> group_name nm h) -> dget k (st_write nm d cf s g global m) = dget k m).
  Proof.
    intro Sp. induction d as [|d IH]; intros g global m Hg Hm He.
    - cbn [st_write content]. split; [exact Hm|]. split; [apply He; [exact Hg|apply isIn_iff; exists []; reflexivity]|auto].
    - cbn [st_write]. rewrite Sp.
      change (match g with [] => [LDigraph EmptyString] | _ => if cf_groups cf then [LCluster g (group_name nm g)] else [] end) with (header g).
      set (m1 := dput (group_name nm g) (header g) m).
      assert (Self : isIn g g = true) by (apply isIn_iff; exists []; reflexivity).
      assert (Below : forall x q, isIn g (q ++ x :: g) = true) by (intros x q; apply isIn_iff; exists (q ++ [x])%list; rewrite <- app_assoc; reflexivity).
      assert (N1 : NoDup (map fst m1)) by (apply dput_keys, Hm).
      assert (G1 : dget (group_name nm g) m1 = header g) by (unfold m1; rewrite dput_same by exact Hm; rewrite (He g Hg Self); reflexivity).
      assert (O1 : forall k, k <> group_name nm g -> dget k m1 = dget k m) by (intros k Hk; apply dput_other; assumption).
      (* the children *)
      assert (F : forall cs m0 acc, NoDup cs -> (forall c, In c cs -> In c (st_children s g)) -> NoDup (map fst m0) -> dget (group_name nm g) m0 = acc ->
        (forall c h, In c cs -> In h (keys s) -> isIn c h = true -> dget (group_name nm h) m0 = []) ->
        let m' := fold_left (fun m c => let m := st_write nm d cf s c [] m in dput (group_name nm g) (dget (group_name nm c) m) m) cs m0 in
        NoDup (map fst m') /\ dget (group_name nm g) m' = (acc ++ flat_map (fun c => content d c []) cs)%list /\
        (forall k, (forall h, In h (keys s) -> isIn g h = true -> k <> group_name nm h) -> dget k m' = dget k m0)).
      { induction cs as [|c cs IHc]; intros m0 acc Nc Hc H0 Ha Hb; cbv zeta.
        - cbn [fold_left flat_map]. rewrite app_nil_r. split; [exact H0|]. split; [exact Ha|auto].
        - cbn [fold_left]. apply NoDup_cons_iff in Nc. destruct Nc as [Nc1 Nc2].
          pose proof (proj1 (children_iff s g c) (Hc c (or_introl eq_refl))) as [Kc [x Ex]].
          destruct (IH c [] m0 Kc H0 (fun h Hh Hi => Hb c h (or_introl eq_refl) Hh Hi)) as (A1 & A2 & A3).
          assert (Gc : forall h, In h (keys s) -> isIn c h = true -> group_name nm g <> group_name nm h).
          { intros h Hh Hi E. apply (inj g h Hg Hh) in E. subst h. apply isIn_iff in Hi. destruct Hi as [q Hq]. rewrite Ex in Hq. apply (f_equal (@List.length N)) in Hq. rewrite app_length in Hq. cbn in Hq. lia. }
          assert (Ag : dget (group_name nm g) (st_write nm d cf s c [] m0) = acc) by (rewrite (A3 _ Gc); exact Ha).
          destruct (IHc (dput (group_name nm g) (dget (group_name nm c) (st_write nm d cf s c [] m0)) (st_write nm d cf s c [] m0)) (acc ++ content d c [])%list) as (B1 & B2 & B3).
          + exact Nc2.
          + intros c' Hc'. apply Hc. right. exact Hc'.
          + apply dput_keys, A1.
          + rewrite dput_same by exact A1. rewrite Ag, A2. reflexivity.
          + intros c' h Hc' Hh Hi. pose proof (proj1 (children_iff s g c') (Hc c' (or_intror Hc'))) as [Kc' [x' Ex']].
            assert (Ng : group_name nm h <> group_name nm g).
            { intro E. apply (inj h g Hh Hg) in E. subst h. apply isIn_iff in Hi. destruct Hi as [q Hq]. rewrite Ex' in Hq. apply (f_equal (@List.length N)) in Hq. rewrite app_length in Hq. cbn in Hq. lia. }
            rewrite dput_other by assumption. rewrite A3; [apply (Hb c' h (or_intror Hc') Hh Hi)|].
            intros h' Hh' Hi' E. apply (inj h h' Hh Hh') in E. subst h'. apply Nc1.
            rewrite (siblings c c' g h (ex_intro _ x Ex) (ex_intro _ x' Ex') Hi' Hi). exact Hc'.
          + cbv zeta in B1, B2, B3. split; [exact B1|]. split; [rewrite B2, <- app_assoc; reflexivity|]. intros k Hk. rewrite (B3 k Hk). rewrite dput_other; [|exact A1|apply Hk; assumption].
            apply A3. intros h Hh Hi. apply Hk; [exact Hh|]. rewrite Ex in Hi. apply isIn_iff in Hi. destruct Hi as [q ->]. apply Below. }
      destruct (F (st_children s g) m1 (header g)) as (B1 & B2 & B3).
      + apply children_nodup, (so_nodup s ok).
      + auto.
      + exact N1.
      + exact G1.
      + intros c h Hc Hh Hi. apply children_iff in Hc. destruct Hc as [_ [x Ex]]. rewrite Ex in Hi. apply isIn_iff in Hi. destruct Hi as [q Eq]. rewrite O1; [rewrite Eq in *; apply He; [exact Hh|apply Below]|].
        intro E. apply (inj h g Hh Hg) in E. subst h. apply (f_equal (@List.length N)) in E. rewrite app_length in E. cbn in E. lia.
      + clear F. cbv zeta in B1, B2, B3. set (m2 := fold_left _ (st_children s g) m1) in *. split; [|split].
        * destruct g; apply dput_keys; exact B1.
        * cbn [content]. unfold footer. destruct g; (rewrite dput_same by exact B1; rewrite B2, <- !app_assoc; reflexivity).
        * intros k Hk. assert (Kg : k <> group_name nm g) by (apply Hk; assumption). assert (Z : forall l, dget k (dput (group_name nm g) l m2) = dget k m).
          { intro l. rewrite dput_other by assumption. rewrite (B3 k Hk). apply O1, Kg. }
          destruct g; apply Z.
  Qed.
  Lemma content_lines : (forall k d, In (k, d) s -> Forall plain (sd_lines d)) -> forall d g global, (0 < d)%nat -> Permutation (filter plainb (content d g global)) (flat_map (st_lines s) (tree s d g) ++ match g with [] => filter plainb global | _ => [] end).
  Proof.
    intro Pl. assert (Sl : forall g, filter plainb (st_lines s g) = st_lines s g).
    { intro g. apply plain_all. unfold st_lines. destruct (find (fun e => path_eqb (fst e) g) s) as [[k d]|] eqn:E; [|constructor]. apply find_some in E. apply (Pl k d), E. }
    assert (Hh : forall g, filter plainb (header g) = []) by (intros [|x g]; [reflexivity|]; cbn [header]; destruct (cf_groups cf); reflexivity).
    assert (Hf : forall g global, filter plainb (footer g global) = match g with [] => filter plainb global | _ => [] end).
    { intros [|x g] global; cbn [footer]; [rewrite filter_app; cbn; apply app_nil_r|]. destruct (cf_groups cf); reflexivity. }
    induction d as [|d IH]; intros g global Hd; [lia|]. cbn [content tree flat_map]. rewrite !filter_app, Hh, Sl, Hf. cbn [app].
    rewrite app_assoc. apply Permutation_app_tail. rewrite Permutation_app_comm. apply Permutation_app_head.
    assert (Cs : forall cs, (forall c, In c cs -> c <> []) -> Permutation (filter plainb (flat_map (fun c => content d c []) cs)) (flat_map (st_lines s) (flat_map (tree s d) cs))).
    { induction cs as [|c cs IHc]; intro Hc; [reflexivity|]. cbn [flat_map]. rewrite filter_app, flat_map_app. apply Permutation_app; [|apply IHc; intros c' Hc'; apply Hc; right; exact Hc'].
      destruct d as [|d']; [reflexivity|]. rewrite (IH c [] ltac:(lia)). destruct c as [|x c]; [exfalso; apply (Hc []); [left; reflexivity|reflexivity]|]. rewrite app_nil_r. reflexivity. }
    apply Cs. intros c Hc. apply children_iff in Hc. destruct Hc as [_ [x ->]]. discriminate.
  Qed.
  Lemma content_wf : (forall k d, In (k, d) s -> Forall plain (sd_lines d)) -> forall d g global, Forall plain global -> well_formed (content d g global).
  Proof.
    intro Pl. assert (Sl : forall g, well_formed (st_lines s g)).
    { intro g. apply wf_plain. unfold st_lines. destruct (find (fun e => path_eqb (fst e) g) s) as [[k d]|] eqn:E; [|constructor]. apply find_some in E. apply (Pl k d), E. }
    induction d as [|d IH]; intros g global Hg; [constructor|]. cbn [content].
    assert (Cs : well_formed (flat_map (fun c => content d c []) (st_children s g))).
    { induction (st_children s g) as [|c cs IHc]; [constructor|]. cbn [flat_map]. apply wf_app; [apply IH; constructor|exact IHc]. }
    destruct g as [|x g]; cbn [header footer].
    - cbn [app]. rewrite !app_assoc. apply wf_wrap; [exact I|]. apply wf_app; [apply wf_app; [exact Cs|apply Sl]|apply wf_plain, Hg].
    - destruct (cf_groups cf); [|rewrite app_nil_r; cbn [app]; apply wf_app; [exact Cs|apply Sl]]. cbn [app]. rewrite app_assoc. apply wf_wrap; [exact I|]. apply wf_app; [exact Cs|apply Sl].
  Qed.
  Lemma content_digraph : (forall k d, In (k, d) s -> Forall plain (sd_lines d)) -> forall d global, Forall plain global -> one_digraph (content (S d) [] global).
  Proof.
    intros Pl d global Hg. assert (Sl : well_formed (st_lines s [])).
    { apply wf_plain. unfold st_lines. destruct (find (fun e => path_eqb (fst e) []) s) as [[k e]|] eqn:E; [|constructor]. apply find_some in E. apply (Pl k e), E. }
    exists EmptyString, ((flat_map (fun c => content d c []) (st_children s []) ++ st_lines s []) ++ global)%list. split.
    - cbn [content header footer app]. rewrite !app_assoc. reflexivity.
    - apply wf_app; [apply wf_app; [|exact Sl]|apply wf_plain, Hg].
      induction (st_children s []) as [|c cs IHc]; [constructor|]. cbn [flat_map]. apply wf_app; [apply content_wf; [exact Pl|constructor]|exact IHc].
  Qed.
  Lemma all_lines : flat_map (st_lines s) (keys s) = flat_map (fun e => sd_lines (snd e)) s.
  Proof.
    pose proof (so_nodup s ok) as N. unfold st_lines. assert (G : forall l, incl l s -> flat_map (fun g => match find (fun e => path_eqb (fst e) g) s with Some e => sd_lines (snd e) | None => [] end) (map fst l) = flat_map (fun e => sd_lines (snd e)) l).
    { induction l as [|[k d] l IH]; intro H; [reflexivity|]. cbn [map flat_map fst snd]. rewrite IH; [|intros x Hx; apply H; right; exact Hx]. f_equal.
      assert (K : In (k, d) s) by (apply H; left; reflexivity). clear - N K. unfold keys in N. revert N K. generalize s as l0. clear s. induction l0 as [|[k' d'] l0 IH]; intros N K; [destruct K|]. cbn [find fst]. cbn [map fst] in N. apply NoDup_cons_iff in N. destruct N as [N1 N2].
      destruct (path_eqb k' k) eqn:E.
      - apply path_eqb_eq in E. subst k'. destruct K as [K|K]; [injection K as ->; reflexivity|]. exfalso. apply N1. exact (in_map fst l0 (k, d) K).
      - destruct K as [K|K]; [injection K as -> _; rewrite path_eqb_refl in E; discriminate|]. apply IH; assumption. }
    apply G. intros x Hx. exact Hx.
  Qed.
  (* Split: one text per group. *)
  Definition split_text (g : gpath) : list line := (LDigraph (group_name nm g) :: st_lines s g ++ [LClose])%list.
  Definition not_root (g : gpath) : bool := match g with [] => false | _ => true end.
  Definition split_texts (l : list gpath) : list (string * list line) := map (fun g => (group_name nm g, split_text g)) (filter not_root l).
  Lemma write_split : cf_split cf = true -> forall d g global m, In g (keys s) -> (forall h, In h (keys s) -> isIn g h = true -> ~ In (group_name nm h) (map fst m)) ->
    Permutation (st_write nm d cf s g global m) (split_texts (tree s d g) ++ m).
  Proof.
    intro Sp. induction d as [|d IH]; intros g global m Hg Hm; [reflexivity|]. cbn [st_write]. rewrite Sp. cbn [tree].
    assert (Self : isIn g g = true) by (apply isIn_iff; exists []; reflexivity).
    set (m1 := match g with [] => m | _ => dput (group_name nm g) (LDigraph (group_name nm g) :: st_lines s g ++ [LClose])%list m end).
    assert (M1 : Permutation m1 (split_texts [g] ++ m)).
    { unfold m1, split_texts. destruct g as [|x g]; [reflexivity|]. cbn [filter not_root map app]. unfold dput. destruct (dhas (group_name nm (x :: g)) m) eqn:E; [exfalso; apply (Hm _ Hg Self); apply dhas_iff, E|]. apply dnew_perm. }
    assert (F : forall cs m0, NoDup cs -> (forall c, In c cs -> In c (st_children s g)) -> (forall c h, In c cs -> In h (keys s) -> isIn c h = true -> ~ In (group_name nm h) (map fst m0)) ->
      Permutation (fold_left (fun m c => st_write nm d cf s c [] m) cs m0) (split_texts (flat_map (tree s d) cs) ++ m0)).
    { induction cs as [|c cs IHc]; intros m0 Nc Hc H0; [reflexivity|]. cbn [fold_left flat_map]. apply NoDup_cons_iff in Nc. destruct Nc as [Nc1 Nc2].
      pose proof (proj1 (children_iff s g c) (Hc c (or_introl eq_refl))) as [Kc Ec].
      pose proof (IH c [] m0 Kc (fun h Hh Hi => H0 c h (or_introl eq_refl) Hh Hi)) as P1.
      rewrite IHc.
      - rewrite P1. unfold split_texts. rewrite filter_app, map_app, !app_assoc. apply Permutation_app_tail, Permutation_app_comm.
      - exact Nc2.
      - intros c' Hc'. apply Hc. right. exact Hc'.
      - intros c' h Hc' Hh Hi K. apply (Permutation_in _ (Permutation_map fst P1)) in K. rewrite map_app in K. apply in_app_or in K. destruct K as [K|K]; [|exact (H0 c' h (or_intror Hc') Hh Hi K)].
        unfold split_texts in K. rewrite map_map in K. cbn [fst] in K. apply in_map_iff in K. destruct K as (h' & E & K). apply filter_In in K. destruct K as [K _].
        destruct (tree_in s ok d c h' Kc K) as [K1 K2]. apply (inj h' h K1 Hh) in E. subst h'.
        pose proof (proj1 (children_iff s g c') (Hc c' (or_intror Hc'))) as [_ Ec']. apply Nc1. rewrite (siblings c c' g h Ec Ec' K2 Hi). exact Hc'. }
    etransitivity; [apply (F (st_children s g) m1)|].
    - apply children_nodup, (so_nodup s ok).
    - auto.
    - intros c h Hc Hh Hi K. apply children_iff in Hc. destruct Hc as [_ [x Ex]]. rewrite Ex in Hi. apply isIn_iff in Hi. destruct Hi as [q Eq].
      apply (Permutation_in _ (Permutation_map fst M1)) in K. rewrite map_app in K. apply in_app_or in K. destruct K as [K|K].
      + unfold split_texts in K. rewrite map_map in K. cbn [fst] in K. apply in_map_iff in K. destruct K as (h' & E & K). apply filter_In in K. destruct K as [[<-|[]] _].
        apply (inj g h Hg Hh) in E. subst g. apply (f_equal (@List.length N)) in Eq. rewrite app_length in Eq. cbn in Eq. lia.
      + apply (Hm h Hh); [|exact K]. apply isIn_iff. exists (q ++ [x])%list. rewrite Eq, <- app_assoc. reflexivity.
    - change (g :: flat_map (tree s d) (st_children s g)) with ([g] ++ flat_map (tree s d) (st_children s g))%list. unfold split_texts at 2. rewrite filter_app, map_app. rewrite M1. rewrite !app_assoc. apply Permutation_app_tail, Permutation_app_comm.
  Qed.
End Write.
