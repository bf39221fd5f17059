From Verif Require Import Spec_Sort.
Local Open Scope N_scope.

(* ---------- shape of the two insertions ---------- *)
Lemma insert_before_None f p l :
  insert_before f p l = None <-> (forall q, In q l -> f q = false).
Proof.
  induction l as [|q r IH]; simpl.
  - split; [intros _ q []|reflexivity].
  - destruct (f q) eqn:Eq.
    + split; [discriminate|]. intro H. rewrite (H q (or_introl eq_refl)) in Eq. discriminate.
    + destruct (insert_before f p r) as [r'|].
      * split; [discriminate|]. intro H. destruct IH as [_ IH].
        specialize (IH (fun q' Hq => H q' (or_intror Hq))). discriminate.
      * split; [|reflexivity]. intros _ q' [<-|Hq]; [exact Eq|]. apply (proj1 IH eq_refl). exact Hq.
Qed.

Lemma insert_before_Some f p l l' :
  insert_before f p l = Some l' ->
  exists a q b, l = a ++ q :: b /\ l' = a ++ p :: q :: b /\ f q = true.
Proof.
  revert l'. induction l as [|q r IH]; simpl; intros l' H; [discriminate|].
  destruct (f q) eqn:Eq.
  - injection H as <-. exists [], q, r. auto.
  - destruct (insert_before f p r) as [r'|]; [|discriminate]. injection H as <-.
    destruct (IH _ eq_refl) as (a & x & b & -> & -> & Hx). exists (q :: a), x, b. auto.
Qed.

Lemma insert_after_last_None f p l :
  insert_after_last f p l = None <-> (forall q, In q l -> f q = false).
Proof.
  induction l as [|q r IH]; simpl.
  - split; [intros _ q []|reflexivity].
  - destruct (insert_after_last f p r) as [r'|].
    + split; [discriminate|]. intro H. destruct IH as [_ IH].
      specialize (IH (fun q' Hq => H q' (or_intror Hq))). discriminate.
    + destruct (f q) eqn:Eq.
      * split; [discriminate|]. intro H. rewrite (H q (or_introl eq_refl)) in Eq. discriminate.
      * split; [|reflexivity]. intros _ q' [<-|Hq]; [exact Eq|]. apply (proj1 IH eq_refl). exact Hq.
Qed.

Lemma insert_after_last_Some f p l l' :
  insert_after_last f p l = Some l' ->
  exists a q b, l = a ++ q :: b /\ l' = a ++ q :: p :: b /\ f q = true /\ (forall x, In x b -> f x = false).
Proof.
  revert l'. induction l as [|q r IH]; simpl; intros l' H; [discriminate|].
  destruct (insert_after_last f p r) as [r'|] eqn:Er.
  - injection H as <-. destruct (IH _ eq_refl) as (a & x & b & -> & -> & Hx & Hb).
    exists (q :: a), x, b. auto.
  - destruct (f q) eqn:Eq; [|discriminate]. injection H as <-. exists [], q, r.
    repeat split; auto. apply (proj1 (insert_after_last_None f p r) Er).
Qed.

Lemma visit_Inserted s p s' :
  visit_pass s p = Inserted s' ->
  exists a b, s = a ++ b /\ s' = a ++ p :: b.
Proof.
  unfold visit_pass. destruct (negb (deps_in s p)); [discriminate|].
  destruct (insert_before _ p s) as [x|] eqn:E1.
  - intro H. injection H as <-. destruct (insert_before_Some _ _ _ _ E1) as (a & q & b & -> & -> & _).
    exists a, (q :: b). auto.
  - destruct (insert_after_last _ p s) as [x|] eqn:E2; [|discriminate].
    intro H. injection H as <-. destruct (insert_after_last_Some _ _ _ _ E2) as (a & q & b & -> & -> & _ & _).
    exists (a ++ [q]), b. rewrite <- !app_assoc. auto.
Qed.

Lemma visit_Inserted_perm s p s' : visit_pass s p = Inserted s' -> Permutation (p :: s) s'.
Proof.
  intro H. destruct (visit_Inserted _ _ _ H) as (a & b & -> & ->). apply Permutation_middle.
Qed.

Lemma visit_Inserted_deps s p s' : visit_pass s p = Inserted s' -> deps_in s p = true.
Proof. unfold visit_pass. destruct (deps_in s p); [auto|discriminate]. Qed.

Lemma deps_in_spec s p :
  deps_in s p = true <-> forall d, In d (fp_deps p) -> exists q, In q s /\ pr_addr (fp_ref q) = pr_addr d.
Proof.
  unfold deps_in. rewrite forallb_forall. split; intros H d Hd.
  - specialize (H d Hd). apply existsb_exists in H. destruct H as (q & Hq & E).
    exists q. split; [exact Hq|]. apply N.eqb_eq. exact E.
  - apply existsb_exists. destruct (H d Hd) as (q & Hq & E). exists q. split; [exact Hq|]. apply N.eqb_eq. exact E.
Qed.

(* ---------- a pass is never dropped ---------- *)
Section Registered.
  Variable ps : list fpass.
  Hypothesis W : well_registered ps.

  Lemma visit_not_Dropped s p :
    incl s ps -> In p ps -> no_deps p = false -> visit_pass s p <> Dropped.
  Proof.
    intros Hs Hp Hd. unfold visit_pass. destruct (deps_in s p) eqn:Ei; simpl; [|discriminate].
    destruct (insert_before _ p s); [discriminate|].
    destruct (insert_after_last _ p s) eqn:E; [discriminate|].
    rewrite insert_after_last_None in E.
    unfold no_deps in Hd. destruct (fp_deps p) as [|d ds] eqn:Ed; [discriminate|].
    apply deps_in_spec with (d := d) in Ei; [|rewrite Ed; left; reflexivity].
    destruct Ei as (q & Hq & Ea). specialize (E q Hq).
    unfold depends_direct in E. rewrite Ed in E. simpl in E.
    assert (Edq : d = fp_ref q).
    { apply (wr_ptr _ W p d q); auto. rewrite Ed; left; reflexivity. }
    subst d. rewrite N.eqb_refl in E. discriminate.
  Qed.

  (* ---------- one round ---------- *)
  Lemma round_perm cur : forall s s' u a,
    incl s ps -> incl cur ps -> (forall p, In p cur -> no_deps p = false) ->
    sort_round s cur = (s', u, a) ->
    Permutation (s ++ cur) (s' ++ u).
  Proof.
    induction cur as [|p r IH]; simpl; intros s s' u a Hs Hc Hn H.
    - injection H as <- <- <-. reflexivity.
    - assert (Hr : incl r ps) by (intros x Hx; apply Hc; right; exact Hx).
      assert (Hnr : forall q, In q r -> no_deps q = false) by (intros x Hx; apply Hn; right; exact Hx).
      destruct (visit_pass s p) as [|s1|] eqn:Ev.
      + destruct (sort_round s r) as [[s2 u2] a2] eqn:E. injection H as <- <- <-.
        specialize (IH _ _ _ _ Hs Hr Hnr E).
        rewrite <- Permutation_middle, IH. apply Permutation_middle.
      + destruct (sort_round s1 r) as [[s2 u2] a2] eqn:E. injection H as <- <- <-.
        pose proof (visit_Inserted_perm _ _ _ Ev) as Hp.
        assert (Hs1 : incl s1 ps).
        { intros x Hx. apply (Permutation_in _ (Permutation_sym Hp)) in Hx. destruct Hx as [<-|Hx]; [apply Hc; left; reflexivity|apply Hs; exact Hx]. }
        specialize (IH _ _ _ _ Hs1 Hr Hnr E). rewrite <- IH.
        rewrite <- Permutation_middle, <- Hp. reflexivity.
      + exfalso. revert Ev. apply visit_not_Dropped; [exact Hs|apply Hc; left; reflexivity|apply Hn; left; reflexivity].
  Qed.

  Lemma round_unsorted_incl cur : forall s s' u a,
    sort_round s cur = (s', u, a) -> incl u cur.
  Proof.
    induction cur as [|p r IH]; simpl; intros s s' u a H.
    - injection H as _ <- _. intros x [].
    - destruct (visit_pass s p) as [|s1|].
      + destruct (sort_round s r) as [[s2 u2] a2] eqn:E. injection H as _ <- _.
        intros x [<-|Hx]; [left; reflexivity|right; eapply IH; eauto].
      + destruct (sort_round s1 r) as [[s2 u2] a2] eqn:E. injection H as _ <- _.
        intros x Hx. right. eapply IH; eauto.
      + intros x Hx. right. eapply IH; eauto.
  Qed.

  Lemma round_length cur : forall s s' u a,
    sort_round s cur = (s', u, a) -> (length u <= length cur)%nat /\ (a = true -> (length u < length cur)%nat).
  Proof.
    induction cur as [|p r IH]; simpl; intros s s' u a H.
    - injection H as _ <- <-. split; [auto|discriminate].
    - destruct (visit_pass s p) as [|s1|].
      + destruct (sort_round s r) as [[s2 u2] a2] eqn:E. injection H as _ <- <-. simpl.
        destruct (IH _ _ _ _ E) as [H1 H2]. split; [lia|]. intro Ha. specialize (H2 Ha). lia.
      + destruct (sort_round s1 r) as [[s2 u2] a2] eqn:E. injection H as _ <- <-.
        destruct (IH _ _ _ _ E) as [H1 H2]. split; lia.
      + destruct (IH _ _ _ _ H) as [H1 H2]. split; [lia|]. intro Ha. specialize (H2 Ha). lia.
  Qed.

  (* ---------- whole loop ---------- *)
  Lemma loop_perm fuel : forall s u l,
    Permutation (s ++ u) ps -> (forall p, In p u -> no_deps p = false) ->
    sort_loop fuel s u = Ok l -> Permutation ps l.
  Proof.
    induction fuel as [|k IH]; intros s u l Hp Hn; destruct u as [|p r]; cbn [sort_loop].
    - intro H; injection H as <-. rewrite app_nil_r in Hp. apply Permutation_sym; exact Hp.
    - discriminate.
    - intro H; injection H as <-. rewrite app_nil_r in Hp. apply Permutation_sym; exact Hp.
    - destruct (sort_round s (p :: r)) as [[s' u'] a] eqn:E. destruct a; [|discriminate].
      apply IH.
      + rewrite <- Hp. apply Permutation_sym. apply (round_perm _ _ _ _ _) with (4 := E); auto.
        * intros x Hx. apply (Permutation_in _ Hp). apply in_or_app. left; exact Hx.
        * intros x Hx. apply (Permutation_in _ Hp). apply in_or_app. right; exact Hx.
      + intros x Hx. apply Hn. eapply round_unsorted_incl; eauto.
  Qed.

  Lemma loop_fuel fuel : forall s u, (length u < fuel)%nat -> sort_loop fuel s u <> OutOfFuel.
  Proof.
    induction fuel as [|k IH]; intros s u Hl; [lia|]. destruct u as [|p r]; [discriminate|].
    cbn [sort_loop]. destruct (sort_round s (p :: r)) as [[s' u'] a] eqn:E. destruct a; [|discriminate].
    apply IH. destruct (round_length _ _ _ _ _ E) as [_ H]. specialize (H eq_refl). lia.
  Qed.
End Registered.

Lemma filter_split_perm {A} (f : A -> bool) l :
  Permutation (filter f l ++ filter (fun x => negb (f x)) l) l.
Proof.
  induction l as [|x l IH]; simpl; [reflexivity|]. destruct (f x); simpl.
  - constructor. exact IH.
  - rewrite <- Permutation_middle. constructor. exact IH.
Qed.

Lemma sortPasses_loop ps : ps <> [] ->
  exists fuel s u, sortPasses ps = sort_loop fuel s u /\ Permutation (s ++ u) ps /\
    (forall p, In p u -> no_deps p = false) /\ (length u < fuel)%nat /\
    ((s = filter no_deps ps /\ u = filter (fun p => negb (no_deps p)) ps /\ s <> [])
     \/ (filter no_deps ps = [] /\ exists p, ps = p :: u /\ s = [p])).
Proof.
  intro Hne. unfold sortPasses. pose proof (filter_split_perm no_deps ps) as HP.
  assert (Hu : forall p, In p (filter (fun p => negb (no_deps p)) ps) -> no_deps p = false).
  { intros p Hp. apply filter_In in Hp. destruct (no_deps p); [destruct Hp; discriminate|reflexivity]. }
  destruct (filter no_deps ps) as [|a s] eqn:Es.
  - destruct (filter (fun p => negb (no_deps p)) ps) as [|b u] eqn:Eu.
    + simpl in HP. apply Permutation_nil in HP. congruence.
    + assert (Hall : ps = b :: u).
      { rewrite <- Eu. clear -Es. induction ps as [|x r IH]; [reflexivity|]. simpl in *.
        destruct (no_deps x); [discriminate|]. simpl. f_equal. apply IH. exact Es. }
      exists (S (length u)), [b], u. repeat split; auto; [|right; split; [auto|exists b; auto]].
      intros p Hp. apply Hu. right; exact Hp.
  - exists (S (length (filter (fun p => negb (no_deps p)) ps))), (a :: s), (filter (fun p => negb (no_deps p)) ps).
    destruct (filter (fun p => negb (no_deps p)) ps) as [|b u] eqn:Eu;
      (repeat split; auto; left; repeat split; auto; discriminate).
Qed.

(* C01 *)
Lemma compile_perm ps l : well_registered ps -> compile_order ps = Ok l -> Permutation ps l.
Proof.
  intros W H. destruct ps as [|p0 r0]; [discriminate|].
  change (sortPasses (p0 :: r0) = Ok l) in H.
  destruct (sortPasses_loop (p0 :: r0)) as (fuel & s & u & E & HP & Hn & Hf & _); [discriminate|].
  rewrite E in H. eapply loop_perm; eauto.
Qed.

Lemma compile_terminates ps : compile_order ps <> OutOfFuel /\ compile_order ps <> Undefined.
Proof.
  destruct ps as [|p0 r0]; [split; discriminate|].
  change (sortPasses (p0 :: r0) <> OutOfFuel /\ sortPasses (p0 :: r0) <> Undefined).
  destruct (sortPasses_loop (p0 :: r0)) as (fuel & s & u & E & HP & Hn & Hf & _); [discriminate|].
  rewrite E. split; [apply loop_fuel; exact Hf|].
  clear. revert s u. induction fuel as [|k IH]; intros s u; destruct u as [|p r]; try discriminate.
  cbn [sort_loop]. destruct (sort_round s (p :: r)) as [[s' u'] a]. destruct a; [apply IH|discriminate].
Qed.

(* ---------- dependencies precede ---------- *)
(* Every dependency of an element of [l] is the reference of an element placed before it. *)
Definition deps_before (l : list fpass) : Prop :=
  forall a p b, l = a ++ p :: b -> forall d, In d (fp_deps p) -> exists q, In q a /\ fp_ref q = d.

Lemma split_insert {A} (a b : list A) p x y z :
  a ++ p :: b = x ++ y :: z ->
  (exists k, x = a ++ p :: k /\ b = k ++ y :: z) \/ (x = a /\ y = p /\ z = b) \/
  (exists k, a = x ++ y :: k /\ z = k ++ p :: b).
Proof.
  revert a. induction x as [|x0 x IH]; intros [|a0 a] H; simpl in H.
  - injection H as <- <-. right; left; auto.
  - injection H as <- <-. right; right. exists a. auto.
  - injection H as -> ->. left. exists x. auto.
  - injection H as <- H. destruct (IH _ H) as [(k & -> & ->)|[(-> & -> & ->)|(k & -> & ->)]].
    + left; exists k; auto.
    + right; left; auto.
    + right; right; exists k; auto.
Qed.

Lemma NoDup_perm {A} (l l' : list A) : Permutation l l' -> NoDup l -> NoDup l'.
Proof. intros H N. eapply Permutation_NoDup; eauto. Qed.

Section Ordered.
  Variable ps : list fpass.
  Hypothesis W : well_registered ps.

  Lemma same_id_eq p q : In p ps -> In q ps -> pr_id (fp_ref p) = pr_id (fp_ref q) -> p = q.
  Proof.
    intros Hp Hq E. destruct W as [_ Hid _].
    revert Hp Hq Hid. generalize ps as l. intro l. induction l as [|x l IH]; intros Hp Hq Hid; [destruct Hp|].
    simpl in Hid. inversion Hid as [|y ys Hnx Hnl]; subst.
    destruct Hp as [<-|Hp], Hq as [<-|Hq]; auto.
    - exfalso. apply Hnx. rewrite E. apply in_map_iff. exists q; auto.
    - exfalso. apply Hnx. rewrite <- E. apply in_map_iff. exists p; auto.
  Qed.

  Lemma visit_deps_before s p s' :
    incl s ps -> In p ps -> ~ In p s -> deps_before s ->
    visit_pass s p = Inserted s' -> deps_before s'.
  Proof.
    intros Hs Hp Hni Hdb Hv. pose proof (visit_Inserted_deps _ _ _ Hv) as Hdi.
    unfold visit_pass in Hv. rewrite Hdi in Hv. simpl in Hv.
    assert (Hnone : insert_before (fun lookup => depends_direct lookup p) p s = None).
    { apply insert_before_None. intros q Hq. unfold depends_direct.
      destruct (existsb _ (fp_deps q)) eqn:Ex; [|reflexivity]. exfalso.
      apply existsb_exists in Ex. destruct Ex as (d & Hd & Ed). apply N.eqb_eq in Ed.
      destruct (in_split _ _ Hq) as (a & b & ->).
      destruct (Hdb a q b eq_refl d Hd) as (x & Hx & <-).
      apply Hni. rewrite (same_id_eq p x); auto.
      - apply in_or_app; left; exact Hx.
      - apply Hs. apply in_or_app; left; exact Hx. }
    rewrite Hnone in Hv. destruct (insert_after_last _ p s) as [s1|] eqn:E; [|discriminate].
    injection Hv as <-. destruct (insert_after_last_Some _ _ _ _ E) as (a & q & b & -> & -> & Hq & Hb).
    intros x y z Hxyz d Hd.
    assert (Heq : (a ++ [q]) ++ p :: b = x ++ y :: z) by (rewrite <- app_assoc; exact Hxyz).
    destruct (split_insert _ _ _ _ _ _ Heq) as [(k & -> & ->)|[(-> & -> & ->)|(k & Hk & ->)]].
    - destruct (Hdb (a ++ q :: k) y z) with (d := d) as (w & Hw & Ew); auto.
      { rewrite <- app_assoc. reflexivity. }
      exists w. split; [|exact Ew]. rewrite !in_app_iff in *. simpl in *. tauto.
    - rewrite deps_in_spec in Hdi. destruct (Hdi d Hd) as (w & Hw & Ew). exists w.
      assert (Edw : d = fp_ref w) by (apply (wr_ptr _ W p d w); auto).
      split; [|auto]. apply in_app_iff in Hw. apply in_app_iff.
      destruct Hw as [Hw|[Hw|Hw]]; [left; exact Hw|right; left; exact Hw|].
      exfalso. specialize (Hb w Hw). unfold depends_direct in Hb.
      assert (Ht : existsb (fun d0 : pref => pr_id (fp_ref w) =? pr_id d0) (fp_deps p) = true).
      { apply existsb_exists. exists d. split; [exact Hd|]. rewrite Edw. apply N.eqb_refl. }
      congruence.
    - assert (Hold : a ++ q :: b = x ++ y :: (k ++ b)).
      { change (a ++ [q] ++ b = x ++ (y :: k) ++ b). rewrite !app_assoc. f_equal.
        rewrite <- Hk. reflexivity. }
      apply (Hdb _ _ _ Hold d Hd).
  Qed.

  Lemma round_deps_before cur : forall s s' u a,
    incl s ps -> incl cur ps -> NoDup (s ++ cur) -> (forall p, In p cur -> no_deps p = false) ->
    deps_before s -> sort_round s cur = (s', u, a) -> deps_before s'.
  Proof.
    induction cur as [|p r IH]; simpl; intros s s' u a Hs Hc Hnd Hn Hdb H.
    - injection H as <- <- <-. exact Hdb.
    - assert (Hr : incl r ps) by (intros x Hx; apply Hc; right; exact Hx).
      assert (Hnr : forall q, In q r -> no_deps q = false) by (intros x Hx; apply Hn; right; exact Hx).
      assert (Hp : In p ps) by (apply Hc; left; reflexivity).
      assert (Hnps : ~ In p (s ++ r)) by (apply NoDup_remove_2 in Hnd; exact Hnd).
      assert (Hndr : NoDup (s ++ r)) by (apply NoDup_remove_1 in Hnd; exact Hnd).
      destruct (visit_pass s p) as [|s1|] eqn:Ev.
      + destruct (sort_round s r) as [[s2 u2] a2] eqn:E. injection H as <- <- <-.
        apply (IH s s2 u2 a2 Hs Hr Hndr Hnr Hdb E).
      + destruct (sort_round s1 r) as [[s2 u2] a2] eqn:E. injection H as <- <- <-.
        pose proof (visit_Inserted_perm _ _ _ Ev) as Hpm.
        refine (IH s1 s2 u2 a2 _ Hr _ Hnr _ E).
        * intros x Hx. apply (Permutation_in _ (Permutation_sym Hpm)) in Hx. destruct Hx as [<-|Hx]; auto.
        * apply (NoDup_perm (s ++ p :: r)); [|exact Hnd]. rewrite <- Permutation_middle, <- Hpm. reflexivity.
        * eapply (visit_deps_before s p); eauto. intro Hin. apply Hnps. apply in_or_app; left; exact Hin.
      + apply (IH s s' u a Hs Hr Hndr Hnr Hdb H).
  Qed.

  Lemma loop_deps_before fuel : forall s u l,
    Permutation (s ++ u) ps -> (forall p, In p u -> no_deps p = false) -> deps_before s ->
    sort_loop fuel s u = Ok l -> deps_before l.
  Proof.
    assert (Hnd : NoDup ps).
    { destruct W as [Ha _ _]. apply NoDup_map_inv in Ha. exact Ha. }
    induction fuel as [|k IH]; intros s u l Hp Hn Hdb; destruct u as [|p r].
    - intro H; injection H as <-. exact Hdb.
    - discriminate.
    - intro H; injection H as <-. exact Hdb.
    - cbn [sort_loop]. destruct (sort_round s (p :: r)) as [[s' u'] a] eqn:E. destruct a; [|discriminate].
      assert (Hs : incl s ps) by (intros x Hx; apply (Permutation_in _ Hp); apply in_or_app; left; exact Hx).
      assert (Hu : incl (p :: r) ps) by (intros x Hx; apply (Permutation_in _ Hp); apply in_or_app; right; exact Hx).
      apply IH.
      + rewrite <- Hp. apply Permutation_sym. apply (round_perm ps W _ _ _ _ _) with (4 := E); auto.
      + intros x Hx. apply Hn. eapply round_unsorted_incl; eauto.
      + eapply round_deps_before with (6 := E); eauto.
        apply (NoDup_perm ps); [apply Permutation_sym; exact Hp|exact Hnd].
  Qed.

  Lemma before_trans l x y z : NoDup l -> before l x y -> before l y z -> before l x z.
  Proof.
    intros Hnd (a & b & c & E1) (a' & b' & c' & E2). subst l.
    assert (E2' : (a ++ x :: b) ++ y :: c = a' ++ y :: (b' ++ z :: c')).
    { rewrite <- app_assoc. exact E2. }
    destruct (split_insert _ _ _ _ _ _ E2') as [(k & -> & ->)|[(-> & _ & <-)|(k & Hk & Hk2)]].
    - exfalso. rewrite app_comm_cons, app_assoc in Hnd. apply NoDup_remove_2 in Hnd. apply Hnd.
      apply in_or_app. right. apply in_or_app. right. left; reflexivity.
    - exists a, (b ++ y :: b'), c'. rewrite <- app_assoc. reflexivity.
    - exfalso. rewrite app_comm_cons, app_assoc in Hnd. apply NoDup_remove_2 in Hnd. apply Hnd.
      rewrite Hk. rewrite !in_app_iff. simpl. tauto.
  Qed.

  Lemma before_irrefl l x : NoDup l -> ~ before l x x.
  Proof.
    intros Hnd (a & b & c & ->). apply NoDup_remove_2 in Hnd. apply Hnd.
    rewrite !in_app_iff. simpl. tauto.
  Qed.

  Lemma deps_before_topological l :
    Permutation ps l -> deps_before l -> closed ps /\ acyclic ps /\ topological ps l.
  Proof.
    intros HP Hdb.
    assert (Hnd : NoDup l).
    { apply (NoDup_perm _ _ HP). destruct W as [Ha _ _]. apply NoDup_map_inv in Ha. exact Ha. }
    assert (Htop : topological ps l).
    { intros p q (Hp & Hq & Hin). apply (Permutation_in _ HP) in Hp.
      destruct (in_split _ _ Hp) as (a & b & E). destruct (Hdb _ _ _ E _ Hin) as (x & Hx & Ex).
      assert (x = q).
      { apply same_id_eq; auto; [|rewrite Ex; reflexivity].
        apply (Permutation_in _ (Permutation_sym HP)). rewrite E. apply in_or_app; left; exact Hx. }
      subst x. destruct (in_split _ _ Hx) as (a1 & a2 & ->). exists a1, a2, b. rewrite E, <- app_assoc. reflexivity. }
    split; [|split; [|exact Htop]].
    - intros p d Hp Hd. apply (Permutation_in _ HP) in Hp. destruct (in_split _ _ Hp) as (a & b & E).
      destruct (Hdb _ _ _ E _ Hd) as (x & Hx & Ex). exists x. split; [|exact Ex].
      apply (Permutation_in _ (Permutation_sym HP)). rewrite E. apply in_or_app; left; exact Hx.
    - intros p Hc. apply (before_irrefl l p Hnd).
      assert (G : forall x y, clos_trans _ (needs ps) x y -> before l y x).
      { intros x y H. induction H as [x y H|x y z H1 IH1 H2 IH2].
        - apply Htop. exact H.
        - eapply before_trans; eauto. }
      apply G. exact Hc.
  Qed.

  Lemma root_loop : has_root ps ->
    exists fuel s u, compile_order ps = sort_loop fuel s u /\ Permutation (s ++ u) ps /\
    (forall p, In p u -> no_deps p = false) /\ (length u < fuel)%nat /\ (forall p, In p s -> fp_deps p = []).
  Proof.
    intros (p & Hp & Ep).
    destruct ps as [|p0 r0] eqn:Eps; [destruct Hp|].
    change (compile_order (p0 :: r0)) with (sortPasses (p0 :: r0)).
    destruct (sortPasses_loop (p0 :: r0)) as (fuel & s & u & E & HP & Hn & Hf & Hc); [discriminate|].
    exists fuel, s, u. repeat split; auto. destruct Hc as [(-> & _ & _)|(Hnil & _)].
    - intros q Hq. apply filter_In in Hq. destruct Hq as [_ Hq]. unfold no_deps in Hq. destruct (fp_deps q); [reflexivity|discriminate].
    - exfalso. assert (In p (filter no_deps (p0 :: r0))).
      { apply filter_In. split; [exact Hp|]. unfold no_deps. rewrite Ep. reflexivity. }
      rewrite Hnil in H. destruct H.
  Qed.

  (* soundness with a root *)
  Lemma compile_sound l : has_root ps -> compile_order ps = Ok l ->
    closed ps /\ acyclic ps /\ topological ps l.
  Proof.
    intros Hr H. destruct (root_loop Hr) as (fuel & s & u & E & HP & Hn & Hf & Hs). rewrite E in H.
    apply deps_before_topological.
    - eapply loop_perm; eauto.
    - eapply loop_deps_before; eauto.
      intros a p b Eab d Hd. rewrite (Hs p) in Hd; [destruct Hd|]. rewrite Eab. apply in_or_app; right; left; reflexivity.
  Qed.

  (* ---------- progress ---------- *)
  Lemma minimal_nn (u : list fpass) : acyclic ps -> u <> [] ->
    (forall m, In m u -> (forall x, In x u -> ~ clos_trans _ (needs ps) m x) -> False) -> False.
  Proof.
    intros Hac. induction u as [|a u IH]; intros Hne K; [congruence|].
    destruct u as [|b u'].
    - apply (K a); [left; reflexivity|]. intros x [<-|[]]. apply Hac.
    - apply IH; [discriminate|]. intros m Hm Hmin.
      apply (K m); [right; exact Hm|]. intros x [<-|Hx]; [|apply Hmin; exact Hx].
      intro Hma. apply (K a); [left; reflexivity|]. intros y [<-|Hy]; [apply Hac|].
      intro Hay. apply (Hmin y Hy). eapply t_trans; eauto.
  Qed.

  Lemma deps_in_mono s s' p : incl s s' -> deps_in s p = true -> deps_in s' p = true.
  Proof.
    intros Hi. rewrite !deps_in_spec. intros H d Hd. destruct (H d Hd) as (q & Hq & E). exists q; auto.
  Qed.

  Lemma round_added cur : forall s s' u a,
    incl s ps -> incl cur ps -> (forall p, In p cur -> no_deps p = false) ->
    sort_round s cur = (s', u, a) ->
    (exists p, In p cur /\ deps_in s p = true) -> a = true.
  Proof.
    induction cur as [|p r IH]; simpl; intros s s' u a Hs Hc Hn H (m & Hm & Hd); [destruct Hm|].
    destruct (visit_pass s p) as [|s1|] eqn:Ev.
    - destruct (sort_round s r) as [[s2 u2] a2] eqn:E. injection H as <- <- <-.
      eapply IH with (s := s); eauto.
      + intros x Hx. apply Hc; right; exact Hx.
      + exists m. split; [|exact Hd]. destruct Hm as [<-|Hm]; [|exact Hm]. exfalso.
        unfold visit_pass in Ev. rewrite Hd in Ev. simpl in Ev.
        destruct (insert_before _ p s); [discriminate|]. destruct (insert_after_last _ p s); discriminate.
    - destruct (sort_round s1 r) as [[s2 u2] a2] eqn:E. injection H as <- <- <-. reflexivity.
    - exfalso. revert Ev. apply (visit_not_Dropped ps W); [exact Hs|apply Hc; left; reflexivity|apply Hn; left; reflexivity].
  Qed.

  Lemma loop_progress fuel : forall s u,
    closed ps -> acyclic ps ->
    Permutation (s ++ u) ps -> (forall p, In p u -> no_deps p = false) -> (length u < fuel)%nat ->
    exists l, sort_loop fuel s u = Ok l.
  Proof.
    induction fuel as [|k IH]; intros s u Hcl Hac HP Hn Hl; [lia|].
    destruct u as [|p r]; [exists s; reflexivity|].
    cbn [sort_loop]. destruct (sort_round s (p :: r)) as [[s' u'] a] eqn:E.
    assert (Hs : incl s ps) by (intros x Hx; apply (Permutation_in _ HP); apply in_or_app; left; exact Hx).
    assert (Hu : incl (p :: r) ps) by (intros x Hx; apply (Permutation_in _ HP); apply in_or_app; right; exact Hx).
    assert (Ha : a = true).
    { destruct a; [reflexivity|]. exfalso.
      apply (minimal_nn (p :: r) Hac); [discriminate|].
      intros m Hm Hmin.
      assert (Hf : false = true).
      { apply (round_added (p :: r) s s' u' false Hs Hu Hn E). exists m. split; [exact Hm|].
        apply deps_in_spec. intros d Hd. destruct (Hcl m d (Hu _ Hm) Hd) as (q & Hq & Eq).
        exists q. split; [|rewrite Eq; reflexivity].
        assert (Hqi : In q (s ++ p :: r)) by (apply (Permutation_in _ (Permutation_sym HP)); exact Hq).
        apply in_app_iff in Hqi. destruct Hqi as [Hqi|Hqi]; [exact Hqi|]. exfalso.
        apply (Hmin q Hqi). apply t_step. split; [apply Hu; exact Hm|]. split; [exact Hq|]. rewrite Eq; exact Hd. }
      discriminate. }
    subst a. apply IH; auto.
    - rewrite <- HP. apply Permutation_sym. apply (round_perm ps W _ _ _ _ _) with (4 := E); auto.
    - intros x Hx. apply Hn. eapply round_unsorted_incl; eauto.
    - destruct (round_length _ _ _ _ _ E) as [_ H]. specialize (H eq_refl). simpl in *. lia.
  Qed.

  Lemma root_exists : closed ps -> acyclic ps -> ps <> [] -> has_root ps.
  Proof.
    intros Hcl Hac Hne.
    destruct (existsb no_deps ps) eqn:Ex.
    - apply existsb_exists in Ex. destruct Ex as (p & Hp & E). exists p. split; [exact Hp|].
      unfold no_deps in E. destruct (fp_deps p); [reflexivity|discriminate].
    - exfalso. apply (minimal_nn ps Hac Hne). intros m Hm Hmin.
      destruct (fp_deps m) as [|d ds] eqn:Ed.
      + assert (existsb no_deps ps = true); [|congruence]. apply existsb_exists. exists m. split; [exact Hm|].
        unfold no_deps. rewrite Ed. reflexivity.
      + destruct (Hcl m d Hm) as (q & Hq & Eq); [rewrite Ed; left; reflexivity|].
        apply (Hmin q Hq). apply t_step. repeat split; auto. rewrite Ed, Eq. left; reflexivity.
  Qed.

  Lemma compile_complete : ps <> [] -> closed ps -> acyclic ps -> exists l, compile_order ps = Ok l.
  Proof.
    intros Hne Hcl Hac. destruct (root_loop (root_exists Hcl Hac Hne)) as (fuel & s & u & E & HP & Hn & Hf & Hs).
    rewrite E. apply loop_progress; auto.
  Qed.
End Ordered.

(* C02 *)
Lemma compile_topological ps l : well_registered ps -> closed ps -> acyclic ps ->
  compile_order ps = Ok l -> topological ps l.
Proof.
  intros W Hcl Hac H. assert (ps <> []) by (intros ->; discriminate).
  apply (compile_sound ps W l); auto. apply root_exists; auto.
Qed.

(* C03 *)
Lemma compile_iff ps : well_registered ps -> has_root ps ->
  ((exists l, compile_order ps = Ok l) <-> closed ps /\ acyclic ps) /\
  (~ (closed ps /\ acyclic ps) -> compile_order ps = Throw).
Proof.
  intros W Hr.
  assert (Hiff : (exists l, compile_order ps = Ok l) <-> closed ps /\ acyclic ps).
  { split.
    - intros (l & Hl). destruct (compile_sound ps W l Hr Hl) as (H1 & H2 & _). auto.
    - intros (H1 & H2). apply compile_complete; auto. destruct Hr as (p & Hp & _). intros ->. destruct Hp. }
  split; [exact Hiff|]. intro Hn. destruct (compile_terminates ps) as [Ht Hu].
  destruct (compile_order ps) as [l| | |] eqn:E; try congruence.
  exfalso. apply Hn. apply Hiff. exists l. reflexivity.
Qed.

(* C05 *)
Lemma round_filter cur : forall s s' u a,
  (forall p, In p cur -> no_deps p = false) ->
  sort_round s cur = (s', u, a) -> filter no_deps s' = filter no_deps s.
Proof.
  induction cur as [|p r IH]; simpl; intros s s' u a Hn H.
  - injection H as <- _ _. reflexivity.
  - assert (Hnr : forall q, In q r -> no_deps q = false) by (intros x Hx; apply Hn; right; exact Hx).
    destruct (visit_pass s p) as [|s1|] eqn:Ev.
    + destruct (sort_round s r) as [[s2 u2] a2] eqn:E. injection H as <- _ _. eapply IH; eauto.
    + destruct (sort_round s1 r) as [[s2 u2] a2] eqn:E. injection H as <- _ _.
      rewrite (IH _ _ _ _ Hnr E). destruct (visit_Inserted _ _ _ Ev) as (x & y & -> & ->).
      rewrite !filter_app. simpl. rewrite (Hn p (or_introl eq_refl)). reflexivity.
    + eapply IH; eauto.
Qed.

Lemma loop_filter fuel : forall s u l,
  (forall p, In p u -> no_deps p = false) ->
  sort_loop fuel s u = Ok l -> filter no_deps l = filter no_deps s.
Proof.
  induction fuel as [|k IH]; intros s u l Hn; destruct u as [|p r].
  - intro H; injection H as <-. reflexivity.
  - discriminate.
  - intro H; injection H as <-. reflexivity.
  - cbn [sort_loop]. destruct (sort_round s (p :: r)) as [[s' u'] a] eqn:E. destruct a; [|discriminate].
    intro H. rewrite (IH s' u' l); auto.
    + eapply round_filter; eauto.
    + intros x Hx. apply Hn. eapply round_unsorted_incl; eauto.
Qed.

Lemma filter_idem {A} (f : A -> bool) l : filter f (filter f l) = filter f l.
Proof. induction l as [|x l IH]; simpl; [reflexivity|]. destruct (f x) eqn:E; simpl; rewrite ?E, ?IH; reflexivity. Qed.

Lemma compile_stable ps l : compile_order ps = Ok l -> filter no_deps l = filter no_deps ps.
Proof.
  intro H. destruct ps as [|p0 r0]; [discriminate|]. change (sortPasses (p0 :: r0) = Ok l) in H.
  destruct (sortPasses_loop (p0 :: r0)) as (fuel & s & u & E & HP & Hn & Hf & Hc); [discriminate|].
  rewrite E in H. rewrite (loop_filter _ _ _ _ Hn H).
  destruct Hc as [(-> & _)|(Hnil & p & Ep & ->)].
  - apply filter_idem.
  - rewrite Hnil. injection Ep as <- <-. simpl in *. destruct (no_deps p0); [discriminate|reflexivity].
Qed.
