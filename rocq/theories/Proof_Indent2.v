(* The characters of the drawings, continued (C114): the texts of the groups. *)
From Verif Require Import Spec_Indent Proof_Dot Proof_Dot2 Proof_Dot3 Proof_Dot4 Proof_Dot5 Proof_Indent.
From Coq Require Import ZArith Ascii DecimalString Lia.
Local Open Scope N_scope.

(* The map of texts. *)
Lemma thas_iff k m : thas k m = true <-> In k (map fst m).
Proof.
  unfold thas. rewrite existsb_exists, in_map_iff. split; intros (e & H1 & H2).
  - exists e. apply String.eqb_eq in H2. split; assumption.
  - exists e. split; [exact H2|apply String.eqb_eq, H1].
Qed.
Lemma tnew_perm k x m : Permutation (tnew k x m) ((k, x) :: m).
Proof.
  induction m as [|[k' l'] m IH]; [reflexivity|]. cbn [tnew]. destruct (String.compare k k'); try reflexivity.
  rewrite IH. apply perm_swap.
Qed.
Lemma tget_in m k l : NoDup (map fst m) -> In (k, l) m -> tget k m = l.
Proof. intros N H. unfold tget. rewrite (find_key m k l N H). reflexivity. Qed.
Lemma tget_out m k : ~ In k (map fst m) -> tget k m = new_stream.
Proof.
  intro H. unfold tget. destruct (find (fun e => String.eqb (fst e) k) m) as [[k' l]|] eqn:E; [|reflexivity]. exfalso. apply H.
  apply find_some in E. destruct E as [E1 E2]. apply String.eqb_eq in E2. cbn [fst] in E2. subst. exact (in_map fst m (k, l) E1).
Qed.
Lemma tput_keys k f m : NoDup (map fst m) -> NoDup (map fst (tput k f m)).
Proof.
  intro N. unfold tput. destruct (thas k m) eqn:E.
  - rewrite map_map. erewrite map_ext; [exact N|]. intro e. destruct (String.eqb (fst e) k); reflexivity.
  - apply (Permutation_NoDup (l := k :: map fst m)).
    + symmetry. exact (Permutation_map fst (tnew_perm k (f new_stream) m)).
    + constructor; [|exact N]. intro H. apply thas_iff in H. congruence.
Qed.
Lemma tput_same k f m : NoDup (map fst m) -> tget k (tput k f m) = f (tget k m).
Proof.
  intro N. pose proof (tput_keys k f m N) as N'. unfold tput in *. destruct (thas k m) eqn:E.
  - apply thas_iff in E. apply in_map_iff in E. destruct E as ([k' t] & E1 & E2). cbn [fst] in E1. subst k'. rewrite (tget_in m k t N E2).
    apply tget_in; [exact N'|]. apply in_map_iff. exists (k, t). cbn [fst snd]. rewrite String.eqb_refl. split; [reflexivity|exact E2].
  - rewrite (tget_out m k); [|intro H; apply thas_iff in H; congruence]. apply tget_in; [exact N'|]. apply (Permutation_in _ (Permutation_sym (tnew_perm k (f new_stream) m))). left. reflexivity.
Qed.
Lemma tput_other k k' f m : NoDup (map fst m) -> k' <> k -> tget k' (tput k f m) = tget k' m.
Proof.
  intros N Hk. pose proof (tput_keys k f m N) as N'. destruct (thas k' m) eqn:E.
  - apply thas_iff in E. apply in_map_iff in E. destruct E as ([k0 t] & E1 & E2). cbn [fst] in E1. subst k0. rewrite (tget_in m k' t N E2).
    apply tget_in; [exact N'|]. unfold tput. destruct (thas k m).
    + apply in_map_iff. exists (k', t). cbn [fst snd]. apply String.eqb_neq in Hk. rewrite Hk. split; [reflexivity|exact E2].
    + apply (Permutation_in _ (Permutation_sym (tnew_perm k (f new_stream) m))). right. exact E2.
  - assert (H0 : ~ In k' (map fst m)) by (intro H; apply thas_iff in H; congruence). rewrite (tget_out m k' H0). apply tget_out. intro H. apply H0. unfold tput in H. destruct (thas k m).
    + rewrite map_map in H. assert (Z : map (fun e : string * ostream => fst (if String.eqb (fst e) k then (fst e, f (snd e)) else e)) m = map fst m).
      { apply map_ext. intro e. destruct (String.eqb (fst e) k); reflexivity. }
      rewrite Z in H. exact H.
    + apply (Permutation_in _ (Permutation_map fst (tnew_perm k (f new_stream) m))) in H. destruct H as [H|H]; [cbn in H; congruence|exact H].
Qed.

Definition raw (x : string) : ostream := {| os_text := x; os_indent := None |}.
Section Write.
  Context (nm : names) (lk : looks) (cf : config) (s : streams).
  Hypothesis ok : st_ok s.
  Hypothesis inj : forall g h, In g (keys s) -> In h (keys s) -> group_name nm g = group_name nm h -> g = h.
  Hypothesis plain_s : forall k d, In (k, d) s -> Forall plain (sd_lines d).
  Definition base_depth (g : gpath) : nat := match g with [] => 0 | _ => if cf_groups cf then 0 else 1 end.
  (* between the beginning and the end of a group *)
  Definition inner (x : string) : ostream := if cf_groups cf then mid x 2 true else raw x.
  Lemma st_lines_plain g : Forall plain (st_lines s g).
  Proof. unfold st_lines. destruct (find (fun e => path_eqb (fst e) g) s) as [[k d]|] eqn:E; [|constructor]. apply find_some in E. apply (plain_s k d), E. Qed.
  Lemma children_wf d cs : well_formed (flat_map (fun c => content nm cf s d c []) cs).
  Proof. induction cs as [|c cs IH]; [constructor|]. cbn [flat_map]. apply wf_app; [apply (content_wf nm cf s plain_s); constructor|exact IH]. Qed.
  Lemma put_child d c x : c <> [] -> text_without newline lk (content nm cf s d c []) ->
    put (as_lines (pretty lk (base_depth c) (content nm cf s d c []))) (inner x) = inner (x ++ as_lines (pretty lk 1 (content nm cf s d c []))).
  Proof.
    intros Hc W. unfold inner, base_depth. destruct c as [|n c]; [congruence|]. destruct (cf_groups cf).
    - change 2%Z with (Z.of_nat 2). rewrite put_lines by (apply pretty_without, W). do 3 f_equal. symmetry.
      exact (pretty_shift lk _ (content_wf nm cf s plain_s d (n :: c) [] (Forall_nil _)) 0 1).
    - unfold raw. apply put_raw.
  Qed.
  Lemma as_lines_shift0 l : map (fun t => (blanks 0 ++ t)%string) l = l.
  Proof. rewrite <- (map_id l) at 2. apply map_ext. reflexivity. Qed.

  Lemma text_whole : cf_split cf = false -> forall d g global m, In g (keys s) -> NoDup (map fst m) ->
    (forall h, In h (keys s) -> isIn g h = true -> tget (group_name nm h) m = new_stream) ->
    Forall plain global -> text_without newline lk (content nm cf s d g global) -> (g = [] \/ global = []) ->
    let m' := wr_text nm lk d cf s g (lines_text lk global) m in
    NoDup (map fst m') /\
    os_text (tget (group_name nm g) m') = as_lines (pretty lk (base_depth g) (content nm cf s d g global)) /\
    (forall k, (forall h, In h (keys s) -> isIn g h = true -> k <> group_name nm h) -> tget k m' = tget k m).
  Proof.
    intro Sp. induction d as [|d IH]; intros g global m Hg Hm He Hpl W Hglob; cbv zeta.
    - cbn [wr_text content]. split; [exact Hm|]. split; [rewrite He; [reflexivity|exact Hg|apply isIn_iff; exists []; reflexivity]|auto].
    - cbn [wr_text]. rewrite Sp. cbn [content] in W. apply text_app in W. destruct W as [Wh W]. apply text_app in W. destruct W as [Wc W]. apply text_app in W. destruct W as [Wl Wf].
      set (hd_text := match g with [] => ("digraph {" ++ eol)%string | _ => if cf_groups cf then group_text nm lk g else EmptyString end).
      assert (Hh : hd_text = as_lines (pretty lk (base_depth g) (header nm cf g))).
      { unfold hd_text, header, base_depth. destruct g as [|x g]; [reflexivity|]. destruct (cf_groups cf); [|reflexivity]. rewrite group_text_lines by discriminate. cbn [pretty]. rewrite app_nil_r.
        unfold shifted. f_equal. symmetry. exact (as_lines_shift0 _). }
      set (m1 := tput (group_name nm g) _ m).
      assert (Self : isIn g g = true) by (apply isIn_iff; exists []; reflexivity).
      assert (Below : forall x q, isIn g (q ++ x :: g) = true) by (intros x q; apply isIn_iff; exists (q ++ [x])%list; rewrite <- app_assoc; reflexivity).
      assert (N1 : NoDup (map fst m1)) by (apply tput_keys, Hm).
      assert (G1 : tget (group_name nm g) m1 = inner hd_text).
      { unfold m1. rewrite tput_same by exact Hm. rewrite (He g Hg Self). cbv beta zeta. change new_stream with (raw EmptyString). unfold raw. fold hd_text. rewrite put_raw. cbn [append].
        unfold inner. destruct (cf_groups cf); reflexivity. }
      assert (O1 : forall k, k <> group_name nm g -> tget k m1 = tget k m) by (intros k Hk; apply tput_other; assumption).
      assert (F : forall cs m0 acc, NoDup cs -> (forall c, In c cs -> In c (st_children s g)) -> NoDup (map fst m0) -> tget (group_name nm g) m0 = inner acc ->
        (forall c h, In c cs -> In h (keys s) -> isIn c h = true -> tget (group_name nm h) m0 = new_stream) ->
        text_without newline lk (flat_map (fun c => content nm cf s d c []) cs) ->
        let m' := fold_left (fun m c => let m := wr_text nm lk d cf s c EmptyString m in tput (group_name nm g) (put (os_text (tget (group_name nm c) m))) m) cs m0 in
        NoDup (map fst m') /\ tget (group_name nm g) m' = inner (acc ++ as_lines (pretty lk 1 (flat_map (fun c => content nm cf s d c []) cs))) /\
        (forall k, (forall h, In h (keys s) -> isIn g h = true -> k <> group_name nm h) -> tget k m' = tget k m0)).
      { induction cs as [|c cs IHc]; intros m0 acc Nc Hc H0 Ha Hb Wcs; cbv zeta.
        - cbn [fold_left flat_map pretty as_lines fold_right]. rewrite str_nil. split; [exact H0|]. split; [exact Ha|auto].
        - cbn [fold_left]. apply NoDup_cons_iff in Nc. destruct Nc as [Nc1 Nc2]. cbn [flat_map] in Wcs. apply text_app in Wcs. destruct Wcs as [Wc1 Wc2].
          pose proof (proj1 (children_iff s g c) (Hc c (or_introl eq_refl))) as [Kc [x Ex]].
          destruct (IH c [] m0 Kc H0 (fun h Hh Hi => Hb c h (or_introl eq_refl) Hh Hi) (Forall_nil _) Wc1 (or_intror eq_refl)) as (A1 & A2 & A3). change (lines_text lk []) with EmptyString in A1, A2, A3.
          assert (Gc : forall h, In h (keys s) -> isIn c h = true -> group_name nm g <> group_name nm h).
          { intros h Hh' Hi E. apply (inj g h Hg Hh') in E. subst h. apply isIn_iff in Hi. destruct Hi as [q Hq]. rewrite Ex in Hq. apply (f_equal (@List.length N)) in Hq. rewrite app_length in Hq. cbn in Hq. lia. }
          assert (Ag : tget (group_name nm g) (wr_text nm lk d cf s c EmptyString m0) = inner acc) by (rewrite (A3 _ Gc); exact Ha).
          assert (Cn : c <> []) by (rewrite Ex; discriminate).
          destruct (IHc (tput (group_name nm g) (put (os_text (tget (group_name nm c) (wr_text nm lk d cf s c EmptyString m0)))) (wr_text nm lk d cf s c EmptyString m0))
            (acc ++ as_lines (pretty lk 1 (content nm cf s d c [])))%string) as (B1 & B2 & B3).
          + exact Nc2.
          + intros c' Hc'. apply Hc. right. exact Hc'.
          + apply tput_keys, A1.
          + rewrite tput_same by exact A1. rewrite Ag, A2. apply put_child; assumption.
          + intros c' h Hc' Hh' Hi. pose proof (proj1 (children_iff s g c') (Hc c' (or_intror Hc'))) as [Kc' [x' Ex']].
            assert (Ng : group_name nm h <> group_name nm g).
            { intro E. apply (inj h g Hh' Hg) in E. subst h. apply isIn_iff in Hi. destruct Hi as [q Hq]. rewrite Ex' in Hq. apply (f_equal (@List.length N)) in Hq. rewrite app_length in Hq. cbn in Hq. lia. }
            rewrite tput_other by assumption. rewrite A3; [apply (Hb c' h (or_intror Hc') Hh' Hi)|].
            intros h' Hh2 Hi' E. apply (inj h h' Hh' Hh2) in E. subst h'. apply Nc1.
            rewrite (siblings c c' g h (ex_intro _ x Ex) (ex_intro _ x' Ex') Hi' Hi). exact Hc'.
          + exact Wc2.
          + cbv zeta in B1, B2, B3. split; [exact B1|]. split.
            * rewrite B2. f_equal. cbn [flat_map]. rewrite pretty_app by (apply (content_wf nm cf s plain_s); constructor). rewrite as_lines_app, str_assoc. reflexivity.
            * intros k Hk. rewrite (B3 k Hk). rewrite tput_other; [|exact A1|apply Hk; assumption].
              apply A3. intros h Hh' Hi. apply Hk; [exact Hh'|]. rewrite Ex in Hi. apply isIn_iff in Hi. destruct Hi as [q ->]. apply Below. }
      destruct (F (st_children s g) m1 hd_text) as (B1 & B2 & B3).
      + apply children_nodup, (so_nodup s ok).
      + auto.
      + exact N1.
      + exact G1.
      + intros c h Hc Hh' Hi. apply children_iff in Hc. destruct Hc as [_ [x Ex]]. rewrite Ex in Hi. apply isIn_iff in Hi. destruct Hi as [q Eq]. rewrite O1; [rewrite Eq in *; apply He; [exact Hh'|apply Below]|].
        intro E. apply (inj h g Hh' Hg) in E. subst h. apply (f_equal (@List.length N)) in E. rewrite app_length in E. cbn in E. lia.
      + exact Wc.
      + clear F. cbv zeta in B1, B2, B3. set (m2 := fold_left _ (st_children s g) m1) in *. split; [apply tput_keys; exact B1|]. split.
        * rewrite tput_same by exact B1. cbv beta zeta. rewrite B2. rewrite (lines_text_pretty lk (st_lines s g) (st_lines_plain g) Wl). rewrite Hh.
          set (kids := flat_map (fun c => content nm cf s d c []) (st_children s g)) in *.
          assert (Wk : well_formed kids) by apply children_wf.
          assert (Ws : well_formed (st_lines s g)) by apply wf_plain, st_lines_plain.
          assert (P1 : forall x l, all_without newline l -> put (as_lines l) (if cf_groups cf then indent (-2) (inner x) else inner x) = (if cf_groups cf then mid (x ++ as_lines l) 0 true else raw (x ++ as_lines l))).
          { intros x l Wx. unfold inner. destruct (cf_groups cf); [|apply put_raw]. rewrite indent_mid. change (Z.max 0 (2 + -2)) with (Z.of_nat 0). rewrite put_lines by exact Wx. rewrite as_lines_shift0. reflexivity. }
          assert (P2 : forall x l, all_without newline l -> put (as_lines l) (if cf_groups cf then mid x 0 true else raw x) = (if cf_groups cf then mid (x ++ as_lines l) 0 true else raw (x ++ as_lines l))).
          { intros x l Wx. destruct (cf_groups cf); [|apply put_raw]. change 0%Z with (Z.of_nat 0). rewrite put_lines by exact Wx. rewrite as_lines_shift0. reflexivity. }
          rewrite P1 by (apply pretty_without; exact Wl).
          assert (Br : ("}" ++ eol)%string = as_lines ["}"%string]) by reflexivity.
          assert (Wb : all_without newline ["}"%string]) by (intros t [<-|[]]; cbn; split; [discriminate|exact I]).
          assert (T : forall x, os_text (if cf_groups cf then mid x 0 true else raw x) = x) by (intro x; destruct (cf_groups cf); reflexivity).
          cbn [content]. fold kids. destruct g as [|x g].
          -- cbn [header footer] in *. apply text_app in Wf. destruct Wf as [Wg _]. rewrite (lines_text_pretty lk global Hpl Wg). rewrite Br, P2 by (apply pretty_without; exact Wg). rewrite P2 by exact Wb. rewrite T.
             cbn [base_depth app pretty]. rewrite (pretty_app lk kids Wk), (pretty_app lk _ Ws), (pretty_app lk global (wf_plain _ Hpl)). cbn [pretty app Nat.sub]. rewrite <- !as_lines_app. cbn [app]. rewrite <- !app_assoc. reflexivity.
          -- destruct Hglob as [Hglob|Hglob]; [discriminate|]. cbn [header footer base_depth] in *. destruct (cf_groups cf).
             ++ specialize (P2 (as_lines (pretty lk 0 [LCluster (x :: g) (group_name nm (x :: g))]) ++ as_lines (pretty lk 1 kids) ++ as_lines (pretty lk 1 (st_lines s (x :: g)))) ["}"%string] Wb)%string.
                rewrite Br. rewrite <- str_assoc in P2. rewrite P2. cbn [mid os_text app]. cbn [pretty]. rewrite (pretty_app lk kids Wk), (pretty_app lk _ Ws). cbn [pretty app Nat.sub]. rewrite <- !as_lines_app. rewrite app_nil_r, <- !app_assoc. reflexivity.
             ++ cbn [raw os_text pretty as_lines fold_right append]. rewrite app_nil_r. cbn [app]. rewrite pretty_app by exact Wk. rewrite as_lines_app. reflexivity.
        * intros k Hk. assert (Kg : k <> group_name nm g) by (apply Hk; assumption). rewrite tput_other by assumption. rewrite (B3 k Hk). apply O1, Kg.
  Qed.

  (* Split. *)
  Definition text_of (e : string * list line) : string * ostream := (fst e, raw (as_lines (pretty lk 0 (snd e)))).
  Lemma thas_map k m : thas k (map text_of m) = dhas k m.
  Proof. unfold thas, dhas. induction m as [|e m IH]; [reflexivity|]. cbn [map existsb text_of fst]. rewrite IH. reflexivity. Qed.
  Lemma tput_map k l f m : (forall e, In e m -> well_formed (snd e)) -> well_formed l -> (forall x, f (raw x) = raw (x ++ as_lines (pretty lk 0 l))) ->
    tput k f (map text_of m) = map text_of (dput k l m) /\ (forall e, In e (dput k l m) -> well_formed (snd e)).
  Proof.
    intros Wm Wl Hf. unfold tput, dput. rewrite thas_map. destruct (dhas k m).
    - split.
      + rewrite !map_map. apply map_ext_in. intros e He. unfold text_of. cbn [fst snd]. destruct (String.eqb (fst e) k); [|reflexivity]. cbn [fst snd]. rewrite Hf. rewrite pretty_app by (apply Wm, He). rewrite as_lines_app. reflexivity.
      + intros e He. apply in_map_iff in He. destruct He as (e0 & <- & H0). destruct (String.eqb (fst e0) k); [apply wf_app; [apply Wm, H0|exact Wl]|apply Wm, H0].
    - change new_stream with (raw EmptyString). rewrite Hf. cbn [append]. split.
      + clear Wm. induction m as [|[k' l'] m IH]; [reflexivity|]. cbn [map dnew tnew text_of fst snd]. destruct (String.compare k k'); try reflexivity. cbn [map]. fold (text_of (k', l')). rewrite <- IH. reflexivity.
      + intros e He. apply (Permutation_in _ (dnew_perm k l m)) in He. destruct He as [<-|He]; [exact Wl|apply Wm, He].
  Qed.
  Lemma text_split : cf_split cf = true -> (forall g, In g (keys s) -> g <> [] -> group_name nm g <> EmptyString) -> forall d g global global' m,
    In g (keys s) -> (forall e, In e m -> well_formed (snd e)) -> (forall h, In h (tree s d g) -> h <> [] -> text_without newline lk (st_lines s h)) ->
    wr_text nm lk d cf s g global' (map text_of m) = map text_of (st_write nm d cf s g global m) /\ (forall e, In e (st_write nm d cf s g global m) -> well_formed (snd e)).
  Proof.
    intros Sp Hne. induction d as [|d IH]; intros g global global' m Hg Wm Ht; [split; [reflexivity|exact Wm]|]. cbn [wr_text st_write]. rewrite Sp. cbn [tree] in Ht.
    set (m1 := match g with [] => m | _ => dput (group_name nm g) (LDigraph (group_name nm g) :: st_lines s g ++ [LClose])%list m end).
    assert (M : match g with
                | [] => map text_of m
                | _ => tput (group_name nm g) (fun o => put ("}" ++ eol) (put (lines_text lk (st_lines s g)) (put ("digraph " ++ quote ++ group_name nm g ++ quote ++ " {" ++ eol) o))) (map text_of m)
                end%string = map text_of m1 /\ (forall e, In e m1 -> well_formed (snd e))).
    { unfold m1. destruct g as [|x g]; [split; [reflexivity|exact Wm]|]. apply tput_map; [exact Wm|apply wf_wrap; [exact I|apply wf_plain, st_lines_plain]|].
      intro y. rewrite (lines_text_pretty lk (st_lines s (x :: g)) (st_lines_plain _) (Ht (x :: g) (or_introl eq_refl) ltac:(discriminate))). unfold raw. rewrite !put_raw. f_equal.
      cbn [pretty]. rewrite pretty_app by (apply wf_plain, st_lines_plain). cbn [pretty Nat.sub]. rewrite app_nil_r, !as_lines_app, !str_assoc. f_equal.
      pose proof (Hne (x :: g) Hg ltac:(discriminate)) as Hn. destruct (group_name nm (x :: g)) as [|c n]; [congruence|]. cbn [opening shifted map as_lines fold_right]. unfold as_line, quote, eol, newline. cbn [blanks Nat.mul Nat.add append]. rewrite !str_assoc. cbn [append]. reflexivity. }
    destruct M as [M1 M2].
    assert (F : forall cs m0, (forall c, In c cs -> In c (st_children s g)) -> (forall e, In e m0 -> well_formed (snd e)) ->
      fold_left (fun m c => wr_text nm lk d cf s c EmptyString m) cs (map text_of m0) = map text_of (fold_left (fun m c => st_write nm d cf s c [] m) cs m0) /\
      (forall e, In e (fold_left (fun m c => st_write nm d cf s c [] m) cs m0) -> well_formed (snd e))).
    { induction cs as [|c cs IHc]; intros m0 Hc W0; [split; [reflexivity|exact W0]|]. cbn [fold_left].
      destruct (IH c [] EmptyString m0) as [A B].
      - apply children_iff with (g := g). apply Hc. left. reflexivity.
      - exact W0.
      - intros h Hh. apply Ht. right. apply in_flat_map. exists c. split; [apply Hc; left; reflexivity|exact Hh].
      - rewrite A. apply IHc; [intros c' Hc'; apply Hc; right; exact Hc'|exact B]. }
    unfold texts in *. rewrite M1. apply F; [auto|exact M2].
  Qed.
End Write.
