(* Proofs about the full names. *)
From Verif Require Import Spec_Names Spec_Group Proof_Group.
From Coq Require Import Ascii Lia List Arith.
Import ListNotations.
Local Open Scope N_scope.

(* ---------- the full name is the path ---------- *)
Lemma concat_snoc sep (l : list string) (x : string) : l <> [] -> String.concat sep (l ++ [x]) = (String.concat sep l ++ sep ++ x)%string.
Proof.
  assert (A : forall a b c : string, ((a ++ b) ++ c)%string = (a ++ (b ++ c))%string) by (induction a; intros; simpl; congruence).
  induction l as [|y l IH]; intro H; [congruence|]. destruct l as [|z l].
  - reflexivity.
  - specialize (IH ltac:(discriminate)). cbn [app String.concat] in *. rewrite IH. rewrite !A. reflexivity.
Qed.
Lemma chain_name (chain : list pgroup) : group_full_name chain = String.concat "/" (rev (map g_name chain)).
Proof.
  induction chain as [|g above IH]; [reflexivity|]. destruct above as [|h r]; [reflexivity|].
  cbn [group_full_name map rev] in *. rewrite IH. rewrite (concat_snoc _ (_ ++ _)); [reflexivity|].
  intro E. apply app_eq_nil in E. destruct E. discriminate.
Qed.
Lemma chain_of path : forall g above, match ancestors path g above with
  | Some chain => exists sub r, subgroup path g = Some sub /\ chain = sub :: r /\ rev (map g_name chain) = rev (map g_name above) ++ names_along path g
  | None => subgroup path g = None
  end.
Proof.
  induction path as [|i path IH]; intros g above; cbn [ancestors subgroup names_along].
  - exists g, above. split; [reflexivity|]. split; [reflexivity|]. reflexivity.
  - destruct (nth_error (g_groups g) i) as [c|]; [|reflexivity].
    specialize (IH c (g :: above)). destruct (ancestors path c (g :: above)) as [chain|]; [|exact IH].
    destruct IH as (sub & r & H1 & H2 & H3). exists sub, r. split; [exact H1|]. split; [exact H2|]. rewrite H3.
    cbn [map rev]. rewrite <- app_assoc. reflexivity.
Qed.
Lemma names_along_nonempty path g : names_along path g <> [].
Proof. destruct path; discriminate. Qed.
Lemma full_name_path g path k : pass_full_name g path k =
  match the_pass g path k with Some p => Some (String.concat "/" (names_along path g ++ [snd p])) | None => None end.
Proof.
  unfold pass_full_name, the_pass. pose proof (chain_of path g []) as C. destruct (ancestors path g []) as [chain|].
  - destruct C as (sub & r & -> & -> & H). destruct (nth_error (g_passes sub) k) as [p|]; [|reflexivity].
    rewrite chain_name, H. cbn [map rev app]. rewrite concat_snoc by apply names_along_nonempty. reflexivity.
  - rewrite C. reflexivity.
Qed.

(* ---------- the path of names without separator is read back ---------- *)
Lemma no_slash_cons a s : no_slash (String a s) -> a <> "/"%char /\ no_slash s.
Proof.
  intro H. split.
  - intro E. apply (H 0%nat). cbn. congruence.
  - intros i. apply (H (S i)).
Qed.
Lemma split_first (x y u v : string) : no_slash x -> no_slash y -> (x ++ "/" ++ u)%string = (y ++ "/" ++ v)%string -> x = y /\ u = v.
Proof.
  revert y. induction x as [|a x IH]; intros [|b y] Hx Hy E; cbn in E.
  - injection E as E. auto.
  - injection E as E1 E2. destruct (no_slash_cons _ _ Hy) as [Hb _]. congruence.
  - injection E as E1 E2. destruct (no_slash_cons _ _ Hx) as [Hb _]. congruence.
  - injection E as E1 E2. destruct (no_slash_cons _ _ Hx) as [_ Hx']. destruct (no_slash_cons _ _ Hy) as [_ Hy'].
    destruct (IH y Hx' Hy' E2). subst. auto.
Qed.
Lemma no_split (x y v : string) : no_slash x -> x <> (y ++ "/" ++ v)%string.
Proof.
  revert y. induction x as [|a x IH]; intros [|b y] Hx E; cbn in E; try discriminate.
  - injection E as E1 E2. destruct (no_slash_cons _ _ Hx) as [Hb _]. congruence.
  - injection E as E1 E2. destruct (no_slash_cons _ _ Hx) as [_ Hx']. exact (IH y Hx' E2).
Qed.
Lemma concat_inj (l : list string) : forall m, l <> [] -> m <> [] -> Forall no_slash l -> Forall no_slash m ->
  String.concat "/" l = String.concat "/" m -> l = m.
Proof.
  induction l as [|x l IH]; intros [|y m] Hl Hm Fl Fm E; try congruence.
  inversion Fl as [|? ? Fx Fl']; subst. inversion Fm as [|? ? Fy Fm']; subst.
  destruct l as [|x' l]; destruct m as [|y' m].
  - cbn in E. congruence.
  - cbn [String.concat] in E. exfalso. exact (no_split _ _ _ Fx E).
  - cbn [String.concat] in E. exfalso. symmetry in E. exact (no_split _ _ _ Fy E).
  - cbn [String.concat] in E. destruct (split_first _ _ _ _ Fx Fy E) as [-> E'].
    f_equal. apply IH; auto; discriminate.
Qed.
Lemma append_cancel (r x y : string) : (r ++ x)%string = (r ++ y)%string -> x = y.
Proof. induction r as [|a r IH]; cbn; intro E; [exact E|]. injection E as E. auto. Qed.
Lemma concat_root (r : string) l m : l <> [] -> m <> [] -> Forall no_slash l -> Forall no_slash m ->
  String.concat "/" (r :: l) = String.concat "/" (r :: m) -> l = m.
Proof.
  intros Hl Hm Fl Fm E. destruct l as [|x l]; [congruence|]. destruct m as [|y m]; [congruence|].
  cbn [String.concat] in E. apply append_cancel in E. cbn [append] in E. injection E as E. apply concat_inj; auto.
Qed.

(* ---------- names without separator, in every group ---------- *)
Definition clean_names (g : pgroup) : Prop := Forall no_slash (map snd (g_passes g)) /\ Forall no_slash (map g_name (g_groups g)).
Lemma update_clean path f : (forall g, g_name (f g) = g_name g) ->
  forall g sub, subgroup path g = Some sub ->
  (Forall clean_names (all_groups sub) -> Forall clean_names (all_groups (f sub))) ->
  Forall clean_names (all_groups g) -> Forall clean_names (all_groups (update_group path f g)).
Proof.
  intro Hf. induction path as [|k path IH]; intros [gi gn gp gg] sub H Hsub Hok; cbn [subgroup update_group g_groups] in *.
  - injection H as <-. auto.
  - destruct (nth_error gg k) as [c|] eqn:E; [|discriminate].
    destruct (set_nth_split _ _ _ E) as (a & b & -> & _ & Hs).
    cbn [all_groups g_id g_name g_passes] in *. rewrite Hs.
    rewrite flat_map_app in *. cbn [flat_map] in *.
    inversion Hok as [|? ? Hroot Hrest]; subst. rewrite !Forall_app in Hrest.
    destruct Hrest as (H1 & H2 & H3). constructor.
    + unfold clean_names in *. cbn [g_passes g_groups] in *. rewrite !map_app in *. cbn [map] in *.
      rewrite (update_name path f Hf). exact Hroot.
    + rewrite !Forall_app. split; [exact H1|]. split; [|exact H3]. eapply IH; eauto.
Qed.
Lemma step_clean g o : no_slash (op_name o) -> Forall clean_names (all_groups g) -> Forall clean_names (all_groups (fst (gstep g o))).
Proof.
  intros Hn Hok. destruct o as [path name|path name]; cbn [op_name] in Hn; unfold gstep.
  - destruct (subgroup path g) as [sub|] eqn:Es; [|exact Hok].
    destruct (hasPass sub name); [exact Hok|]. cbn [fst].
    eapply update_clean; eauto. destruct sub as [si sn sp sg].
    intro H. cbn [all_groups push_pass g_id g_name g_passes g_groups] in *.
    inversion H as [|? ? [Hr1 Hr2] Hrest]; subst. constructor; [|exact Hrest].
    split; [|exact Hr2]. cbn [g_passes]. rewrite map_app. apply Forall_app. split; [exact Hr1|]. constructor; [exact Hn|constructor].
  - destruct (subgroup path g) as [sub|] eqn:Es; [|exact Hok].
    destruct (find_pos _ (g_groups sub)); [exact Hok|]. cbn [fst].
    eapply update_clean; eauto. destruct sub as [si sn sp sg].
    intro H. cbn [all_groups push_group g_id g_name g_passes g_groups] in *.
    inversion H as [|? ? [Hr1 Hr2] Hrest]; subst. constructor.
    + split; [exact Hr1|]. cbn [g_groups]. rewrite map_app. apply Forall_app. split; [exact Hr2|]. constructor; [exact Hn|constructor].
    + rewrite flat_map_app. apply Forall_app. split; [exact Hrest|]. simpl. constructor; [|constructor].
      split; constructor.
Qed.
Lemma run_keeps (P : pgroup -> Prop) (Q : gop -> Prop) : (forall g o, Q o -> P g -> P (fst (gstep g o))) ->
  forall ops g, Forall Q ops -> P g -> P (fst (grun g ops)).
Proof.
  intros Hs. induction ops as [|o ops IH]; intros g HQ HP; [exact HP|].
  inversion HQ as [|? ? H1 H2]; subst. cbn [grun]. pose proof (Hs g o H1 HP) as HP'.
  destruct (gstep g o) as [g' x]. cbn [fst] in HP'. specialize (IH g' H2 HP'). destruct (grun g' ops). exact IH.
Qed.
Lemma run_clean name ops : Forall (fun o => no_slash (op_name o)) ops -> Forall clean_names (all_groups (fst (grun (ginit name) ops))).
Proof.
  intro H. apply (run_keeps (fun g => Forall clean_names (all_groups g)) (fun o => no_slash (op_name o))); [intros; apply step_clean; assumption|exact H|].
  repeat constructor.
Qed.
Lemma run_names_ok name ops : Forall names_ok (all_groups (fst (grun (ginit name) ops))).
Proof.
  apply (run_keeps (fun g => Forall names_ok (all_groups g)) (fun _ => True)); [intros; apply step_names_ok; assumption|apply Forall_forall; auto|].
  repeat constructor.
Qed.
Lemma along_clean path : forall g sub k p, subgroup path g = Some sub -> nth_error (g_passes sub) k = Some p -> Forall clean_names (all_groups g) ->
  Forall no_slash (tl (names_along path g ++ [snd p])).
Proof.
  induction path as [|i path IH]; intros [gi gn gp gg] sub k p Hs Hp Hc; cbn [subgroup g_groups] in Hs; cbn [names_along g_name app tl].
  - injection Hs as <-. cbn [g_passes] in Hp. inversion Hc as [|? ? [H _] _]; subst. constructor; [|constructor].
    rewrite Forall_forall in H. apply H. apply in_map. eapply nth_error_In; eauto.
  - cbn [g_groups]. destruct (nth_error gg i) as [c|] eqn:E; [|discriminate].
    cbn [all_groups] in Hc. inversion Hc as [|? ? [_ H] Hr]; subst. cbn [g_groups] in H.
    assert (Hc' : Forall clean_names (all_groups c)).
    { rewrite Forall_forall in *. intros x Hx. apply Hr. apply in_flat_map. exists c. split; [eapply nth_error_In; eauto|exact Hx]. }
    specialize (IH c sub k p Hs Hp Hc'). assert (Hn : no_slash (g_name c)).
    { rewrite Forall_forall in H. apply H. apply in_map. eapply nth_error_In; eauto. }
    destruct path; cbn [names_along app tl] in *; constructor; auto.
Qed.
Lemma nodup_nth {A B} (f : A -> B) l i j x y : NoDup (map f l) -> nth_error l i = Some x -> nth_error l j = Some y -> f x = f y -> i = j.
Proof.
  intros Hn Hi Hj E. rewrite NoDup_nth_error in Hn. apply Hn.
  - rewrite map_length. apply nth_error_Some. congruence.
  - rewrite (map_nth_error f _ _ Hi), (map_nth_error f _ _ Hj). congruence.
Qed.
Lemma names_along_inj path : forall path' g sub sub' k k' p p',
  Forall names_ok (all_groups g) ->
  subgroup path g = Some sub -> subgroup path' g = Some sub' -> nth_error (g_passes sub) k = Some p -> nth_error (g_passes sub') k' = Some p' ->
  names_along path g ++ [snd p] = names_along path' g ++ [snd p'] -> path = path' /\ k = k'.
Proof.
  assert (L : forall l (m : list string) x, [x] = l ++ m -> l <> [] -> m <> [] -> False).
  { intros [|y l] [|z m] x E H1 H2; try congruence. cbn in E. injection E as _ E. destruct l; discriminate. }
  induction path as [|i path IH]; intros [|j path'] [gi gn gp gg] sub sub' k k' p p' Hok Hs Hs' Hp Hp' E; cbn [subgroup g_groups] in Hs, Hs';
    cbn [names_along g_name g_groups app] in E.
  - injection Hs as <-. injection Hs' as <-. cbn [g_passes] in *. injection E as E. split; [reflexivity|].
    inversion Hok as [|? ? [H _] _]; subst. exact (nodup_nth snd _ _ _ _ _ H Hp Hp' E).
  - exfalso. destruct (nth_error gg j) as [c|]; [|discriminate]. injection E as E. apply (L _ _ _ E); [apply names_along_nonempty|discriminate].
  - exfalso. destruct (nth_error gg i) as [c|]; [|discriminate]. injection E as E. symmetry in E. apply (L _ _ _ E); [apply names_along_nonempty|discriminate].
  - destruct (nth_error gg i) as [c|] eqn:Ei; [|discriminate]. destruct (nth_error gg j) as [c'|] eqn:Ej; [|discriminate]. injection E as E.
    assert (En : g_name c = g_name c').
    { destruct path, path'; cbn [names_along app] in E; injection E as E1; exact E1. }
    cbn [all_groups] in Hok. inversion Hok as [|? ? [_ H] Hr]; subst. cbn [g_groups] in H.
    pose proof (nodup_nth g_name _ _ _ _ _ H Ei Ej En) as <-. rewrite Ei in Ej. injection Ej as <-.
    assert (Hc' : Forall names_ok (all_groups c)).
    { rewrite Forall_forall in *. intros x Hx. apply Hr. apply in_flat_map. exists c. split; [eapply nth_error_In; eauto|exact Hx]. }
    destruct (IH path' c sub sub' k k' p p' Hc' Hs Hs' Hp Hp' E) as [<- <-]. auto.
Qed.

Lemma full_names_distinct name ops path path' k k' s : Forall (fun o => no_slash (op_name o)) ops ->
  let g := fst (grun (ginit name) ops) in
  pass_full_name g path k = Some s -> pass_full_name g path' k' = Some s -> path = path' /\ k = k'.
Proof.
  intros Hc g H H'. rewrite full_name_path in H, H'. unfold the_pass in H, H'.
  destruct (subgroup path g) as [sub|] eqn:Es; [|discriminate]. destruct (nth_error (g_passes sub) k) as [p|] eqn:Ep; [|discriminate].
  destruct (subgroup path' g) as [sub'|] eqn:Es'; [|discriminate]. destruct (nth_error (g_passes sub') k') as [p'|] eqn:Ep'; [|discriminate].
  injection H as H. injection H' as H'. rewrite <- H' in H. clear H'.
  pose proof (run_clean name ops Hc) as C. fold g in C. pose proof (run_names_ok name ops) as O. fold g in O.
  pose proof (along_clean _ _ _ _ _ Es Ep C) as F. pose proof (along_clean _ _ _ _ _ Es' Ep' C) as F'.
  apply (names_along_inj path path' g sub sub' k k' p p' O Es Es' Ep Ep').
  assert (R : forall q t, names_along q g ++ [t] = g_name g :: tl (names_along q g ++ [t])) by (intros [|? ?] t; reflexivity).
  assert (NE : forall q t, tl (names_along q g ++ [t]) <> []).
  { intros [|i q] t; cbn [names_along app tl]; [discriminate|]. intro E. apply app_eq_nil in E. destruct E. discriminate. }
  rewrite (R path), (R path') in *. f_equal. cbn [tl] in *.
  apply concat_root in H; auto.
Qed.

(* ---------- nothing already created changes ---------- *)
Definition grows (f : pgroup -> pgroup) : Prop := forall g, g_name (f g) = g_name g /\
  (exists l, g_passes (f g) = g_passes g ++ l) /\ (exists l, g_groups (f g) = g_groups g ++ l).
Lemma nth_app {A} (l m : list A) i x : nth_error l i = Some x -> nth_error (l ++ m) i = Some x.
Proof. intro H. rewrite nth_error_app1; [exact H|]. apply nth_error_Some. congruence. Qed.
Lemma set_nth_same {A} i (x y : A) : forall l, nth_error l i = Some y -> nth_error (set_nth i x l) i = Some x.
Proof. induction i as [|i IH]; intros [|z l] H; cbn in *; try discriminate; auto. Qed.
Lemma set_nth_other {A} i j (x : A) : forall l, i <> j -> nth_error (set_nth i x l) j = nth_error l j.
Proof. revert j. induction i as [|i IH]; intros [|j] [|z l] H; cbn in *; try congruence; auto. Qed.
Lemma grow_keeps q f : grows f -> forall path g sub k p, subgroup path g = Some sub -> nth_error (g_passes sub) k = Some p ->
  the_pass (update_group q f g) path k = Some p /\ names_along path (update_group q f g) = names_along path g.
Proof.
  intros Hf. induction q as [|j q IH]; intros path g sub k p Hs Hp.
  - cbn [update_group]. destruct (Hf g) as (Hn & (lp & Hps) & (lg & Hgs)). destruct path as [|i path].
    + injection Hs as <-. unfold the_pass. cbn [subgroup names_along]. rewrite Hps, Hn. split; [apply nth_app; exact Hp|reflexivity].
    + cbn [subgroup] in Hs. destruct (nth_error (g_groups g) i) as [c|] eqn:E; [|discriminate].
      unfold the_pass. cbn [subgroup names_along]. rewrite Hgs, (nth_app _ _ _ _ E), E, Hn, Hs. split; [exact Hp|reflexivity].
  - cbn [update_group]. destruct (nth_error (g_groups g) j) as [d|] eqn:Ed.
    2:{ split; [|reflexivity]. unfold the_pass. rewrite Hs. exact Hp. }
    destruct path as [|i path].
    + injection Hs as <-. split; [exact Hp|reflexivity].
    + cbn [subgroup] in Hs. unfold the_pass. cbn [subgroup names_along g_groups g_name].
      destruct (PeanoNat.Nat.eq_dec j i) as [<-|Ne].
      * rewrite (set_nth_same _ _ _ _ Ed). rewrite Ed in Hs |- *. destruct (IH path d sub k p Hs Hp) as [H1 H2].
        split; [exact H1|]. rewrite H2. reflexivity.
      * rewrite (set_nth_other _ _ _ _ Ne). destruct (nth_error (g_groups g) i) as [c|] eqn:E; [|discriminate].
        rewrite Hs. split; [exact Hp|reflexivity].
Qed.
Lemma step_keeps o g path k p : the_pass g path k = Some p ->
  the_pass (fst (gstep g o)) path k = Some p /\ names_along path (fst (gstep g o)) = names_along path g.
Proof.
  intro H. assert (H0 := H). unfold the_pass in H. destruct (subgroup path g) as [sub|] eqn:Es; [|discriminate].
  destruct o as [q n|q n]; unfold gstep.
  - destruct (subgroup q g) as [s|]; [|auto]. destruct (hasPass s n); [auto|]. cbn [fst]. eapply grow_keeps; eauto.
    intros [xi xn xp xg]. split; [reflexivity|]. split; [eexists; reflexivity|]. exists []. cbn. symmetry. apply app_nil_r.
  - destruct (subgroup q g) as [s|]; [|auto]. destruct (find_pos _ (g_groups s)); [auto|]. cbn [fst]. eapply grow_keeps; eauto.
    intros [xi xn xp xg]. split; [reflexivity|]. split; [exists []; cbn; symmetry; apply app_nil_r|]. eexists; reflexivity.
Qed.
Lemma run_keeps_pass ops : forall g path k p, the_pass g path k = Some p ->
  the_pass (fst (grun g ops)) path k = Some p /\ names_along path (fst (grun g ops)) = names_along path g.
Proof.
  induction ops as [|o ops IH]; intros g path k p H; [auto|]. cbn [grun].
  destruct (step_keeps o g path k p H) as [H1 H2]. destruct (gstep g o) as [g' x]. cbn [fst] in *.
  destruct (IH g' path k p H1) as [H3 H4]. destruct (grun g' ops). cbn [fst] in *. split; congruence.
Qed.
