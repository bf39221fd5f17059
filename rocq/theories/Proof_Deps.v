From Verif Require Import Spec_Deps Proof_Layout.
From Coq Require Import Arith ZifyBool ZifyNat ZifyN.
Local Open Scope N_scope.

(* Cache *)
Lemma cfind_cput s h b c s' h' : cfind s' h' (cput s h b c) = if andb (N.eqb s' s) (N.eqb h' h) then Some b else cfind s' h' c.
Proof.
  unfold cfind, cput. destruct (N.eqb_spec s' s) as [->|Hn]; cbn [andb].
  - rewrite mfind_mput_same. destruct (N.eqb_spec h' h) as [->|Hh]; [apply mfind_mput_same|].
    rewrite mfind_mput_other by exact Hh. destruct (mfind s c); reflexivity.
  - rewrite mfind_mput_other by exact Hn. reflexivity.
Qed.

(* Termination of the search, for any dependency relation. *)
Section Term.
  Variables (isOut isIn : dpass -> bool) (w : world) (h target : N).
  Definition unknown (c : dcache) : nat := length (filter (fun p => match cfind (d_id p) h c with Some _ => false | None => true end) w).
  Definition grows (c c' : dcache) : Prop := forall s, cfind s h c <> None -> cfind s h c' <> None.
  Lemma grows_refl c : grows c c. Proof. intros s H; exact H. Qed.
  Lemma grows_trans a b c : grows a b -> grows b c -> grows a c. Proof. intros H1 H2 s H. apply H2, H1, H. Qed.
  Lemma grows_put s b c : grows c (cput s h b c).
  Proof. intros s' H. rewrite cfind_cput. destruct (andb _ _); [discriminate|exact H]. Qed.
  Lemma filter_le {A} (f g : A -> bool) l : (forall x, In x l -> f x = true -> g x = true) -> (length (filter f l) <= length (filter g l))%nat.
  Proof.
    induction l as [|x l IH]; intro H; cbn; [lia|]. specialize (IH (fun y Hy => H y (or_intror Hy))).
    pose proof (H x (or_introl eq_refl)) as Hx. destruct (f x); [rewrite Hx by reflexivity; cbn; lia|]. destruct (g x); cbn; lia.
  Qed.
  Lemma filter_lt {A} (f g : A -> bool) l x : In x l -> f x = false -> g x = true -> (forall x, In x l -> f x = true -> g x = true) -> (length (filter f l) < length (filter g l))%nat.
  Proof.
    induction l as [|y l IH]; intros Hx Hf Hg H; [destruct Hx|]. cbn.
    pose proof (filter_le f g l (fun z Hz => H z (or_intror Hz))) as L.
    destruct Hx as [->|Hx].
    - rewrite Hf, Hg. cbn. lia.
    - specialize (IH Hx Hf Hg (fun z Hz => H z (or_intror Hz))). pose proof (H y (or_introl eq_refl)) as Hy.
      destruct (f y); [rewrite Hy by reflexivity; cbn; lia|]. destruct (g y); cbn; lia.
  Qed.
  Lemma unknown_grows c c' : grows c c' -> (unknown c' <= unknown c)%nat.
  Proof.
    intro G. apply filter_le. intros p _ Hp. specialize (G (d_id p)). destruct (cfind (d_id p) h c); [|reflexivity].
    destruct (cfind (d_id p) h c'); [discriminate|]. exfalso. apply G; [discriminate|reflexivity].
  Qed.
  Lemma pass_of_in i : d_deps (pass_of w i) = [] \/ exists p, In p w /\ d_id p = i.
  Proof.
    induction w as [|p l IH]; cbn; [left; reflexivity|]. destruct (N.eqb_spec (d_id p) i) as [E|E].
    - right. exists p. auto.
    - destruct IH as [IH|(q & Hq & Eq)]; [left; exact IH|right; exists q; auto].
  Qed.
  Lemma terminates fuel : forall self c, (unknown c < fuel)%nat ->
    exists b c', dependsOn_fuel isOut isIn w fuel h target self c = Some (b, c') /\ grows c c'.
  Proof.
    induction fuel as [|f IH]; intros self c Hf; [lia|]. cbn [dependsOn_fuel].
    destruct (cfind self h c) as [b|] eqn:E; [exists b, c; split; [reflexivity|apply grows_refl]|].
    set (c1 := cput self h false c). assert (G1 : grows c c1) by apply grows_put.
    assert (S : forall deps c2, grows c1 c2 -> (deps = [] \/ exists p, In p w /\ d_id p = self) ->
       exists b c', search isOut isIn w (dependsOn_fuel isOut isIn w f h target) target deps c2 = Some (b, c') /\ grows c2 c').
    { induction deps as [|q deps IHd]; intros c2 G Hs; cbn [search]. { exists false, c2. split; [reflexivity|apply grows_refl]. }
      destruct Hs as [Hs|Hs]; [discriminate|].
      assert (U : (unknown c2 < f)%nat).
      { destruct Hs as (p & Hp & Ep). pose proof (unknown_grows c1 c2 G) as L.
        assert (unknown c1 < unknown c)%nat; [|lia]. apply (filter_lt _ _ w p); auto.
        - cbn. rewrite Ep. unfold c1. rewrite cfind_cput, !N.eqb_refl. reflexivity.
        - cbn. rewrite Ep, E. reflexivity.
        - intros x _ Hx. specialize (G1 (d_id x)). destruct (cfind (d_id x) h c); [|reflexivity].
          destruct (cfind (d_id x) h c1); [discriminate|]. exfalso. apply G1; [discriminate|reflexivity]. }
      destruct (isOut (pass_of w q)).
      - destruct (N.eqb target q). { exists true, c2. split; [reflexivity|apply grows_refl]. } apply IHd; auto.
      - destruct (isIn (pass_of w q)). { apply IHd; auto. }
        destruct (IH q c2 U) as (b & c3 & -> & G3). destruct b. { exists true, c3. auto. }
        destruct (IHd c3) as (b' & c4 & -> & G4); auto. { apply (grows_trans c1 c2 c3); auto. }
        exists b', c4. split; [reflexivity|]. apply (grows_trans c2 c3 c4); auto. }
    assert (Hs : d_deps (pass_of w self) = [] \/ exists p, In p w /\ d_id p = self) by apply pass_of_in.
    destruct (S _ c1 (grows_refl c1) Hs) as (b & c' & -> & G). exists b, (cput self h b c'). split; [reflexivity|].
    apply (grows_trans c c1); [exact G1|]. apply (grows_trans c1 c'); [exact G|apply grows_put].
  Qed.
  Lemma unknown_le c : (unknown c <= length w)%nat.
  Proof. unfold unknown. induction w as [|p l IH]; cbn; [lia|]. destruct (cfind (d_id p) h c); cbn; lia. Qed.
End Term.

(* Ranks: position in the compiled order. *)
Fixpoint rank (w : world) (i : N) : nat := match w with [] => O | p :: r => if N.eqb (d_id p) i then O else S (rank r i) end.
Lemma rank_le w i : (rank w i <= length w)%nat.
Proof. induction w as [|p r IH]; cbn; [lia|]. destruct (N.eqb _ _); lia. Qed.
Lemma rank_before before p after_ : ~ In (d_id p) (map d_id before) -> rank (before ++ p :: after_) (d_id p) = length before.
Proof.
  induction before as [|x l IH]; intro H; cbn; [rewrite N.eqb_refl; reflexivity|].
  destruct (N.eqb_spec (d_id x) (d_id p)) as [E|E]; [exfalso; apply H; left; exact E|]. f_equal. apply IH. intro; apply H; right; assumption.
Qed.
Lemma rank_in l r q : In q (map d_id l) -> (rank (l ++ r) q < length l)%nat.
Proof.
  induction l as [|x l IH]; intro H; cbn; [destruct H|]. destruct (N.eqb_spec (d_id x) q); [lia|].
  destruct H as [H|H]; [contradiction|]. specialize (IH H). lia.
Qed.
Lemma pass_of_split w i : d_deps (pass_of w i) = [] \/ exists b p a, w = b ++ p :: a /\ ~ In i (map d_id b) /\ d_id p = i /\ pass_of w i = p.
Proof.
  induction w as [|x w IH]; cbn; [left; reflexivity|]. destruct (N.eqb_spec (d_id x) i) as [E|E].
  - right. exists [], x, w. repeat split; auto.
  - destruct IH as [IH|(b & p & a & -> & Hn & Ei & Ep)]; [left; exact IH|]. right. exists (x :: b), p, a. repeat split; auto.
    intros [H|H]; [exact (E H)|exact (Hn H)].
Qed.
Lemma rank_dep w p q : compiled_order w -> needs_pass w p q -> (rank w q < rank w p)%nat.
Proof.
  intros [_ Ho] Hn. unfold needs_pass in Hn. destruct (pass_of_split w p) as [E|(b & x & a & Ew & Hb & Ex & Ep)]; [rewrite E in Hn; destruct Hn|].
  rewrite Ep in Hn. pose proof (Ho b x a Ew q Hn) as Hq. rewrite Ew.
  rewrite <- Ex in *. rewrite rank_before by exact Hb. apply rank_in. exact Hq.
Qed.

(* first_producer over decidable predicates *)
Inductive fpb (isOut isIn : dpass -> bool) (w : world) : N -> N -> Prop :=
| fpb_direct self target : needs_pass w self target -> isOut (pass_of w target) = true -> fpb isOut isIn w self target
| fpb_through self q target : needs_pass w self q -> isOut (pass_of w q) = false -> isIn (pass_of w q) = false ->
    fpb isOut isIn w q target -> fpb isOut isIn w self target.
Lemma fpb_iff isOut isIn (P C : dpass -> Prop) w self target :
  (forall p, isOut p = true <-> P p) -> (forall p, isIn p = true <-> C p) ->
  (fpb isOut isIn w self target <-> first_producer P C w self target).
Proof.
  intros HP HC.
  assert (NP : forall p, isOut p = false <-> ~ P p). { intro p. rewrite <- HP. destruct (isOut p); split; congruence. }
  assert (NC : forall p, isIn p = false <-> ~ C p). { intro p. rewrite <- HC. destruct (isIn p); split; congruence. }
  split; intro H.
  - induction H as [s t Hn Ho|s q t Hn Ho Hi _ IH]; [apply fp_direct; [exact Hn|apply HP; exact Ho]|].
    apply (fp_through P C w s q t Hn); [apply NP; exact Ho|apply NC; exact Hi|exact IH].
  - induction H as [s t Hn Ho|s q t Hn Ho Hi _ IH]; [apply fpb_direct; [exact Hn|apply HP; exact Ho]|].
    apply (fpb_through isOut isIn w s q t Hn); [apply NP; exact Ho|apply NC; exact Hi|exact IH].
Qed.
Lemma fp_depends P C w s t : first_producer P C w s t -> depends w s t.
Proof. intro H. induction H as [s t Hn _|s q t Hn _ _ _ IH]; [apply t_step; exact Hn|apply t_trans with q; [apply t_step; exact Hn|exact IH]]. Qed.
Lemma fp_produces P C w s t : first_producer P C w s t -> P (pass_of w t).
Proof. intro H. induction H; assumption. Qed.

(* Correctness of the memoised search. *)
Section Memo.
  Variables (isOut isIn : dpass -> bool) (w : world) (h target : N) (rk : N -> nat).
  Hypothesis Hrk : forall p q, needs_pass w p q -> (rk q < rk p)%nat.
  Notation fp := (fun s => fpb isOut isIn w s target).
  Definition ok_at (c : dcache) (s : N) : Prop := forall b, cfind s h c = Some b -> (b = true <-> fp s).
  Definition framed (self : N) (c c' : dcache) : Prop := forall s k, k <> h \/ ((rk self <= rk s)%nat /\ s <> self) -> cfind s k c' = cfind s k c.

  Lemma memo fuel : forall self c, (rk self < fuel)%nat -> (forall s, (rk s <= rk self)%nat -> ok_at c s) ->
    exists b c', dependsOn_fuel isOut isIn w fuel h target self c = Some (b, c') /\ (b = true <-> fp self) /\
      (forall s, (rk s <= rk self)%nat -> ok_at c' s) /\ framed self c c'.
  Proof.
    induction fuel as [|f IH]; intros self c Hf Hok; [lia|]. cbn [dependsOn_fuel].
    destruct (cfind self h c) as [b|] eqn:E.
    { exists b, c. split; [reflexivity|]. split; [apply (Hok self); [lia|exact E]|]. split; [exact Hok|]. intros s k _. reflexivity. }
    set (c1 := cput self h false c).
    assert (S : forall deps c2, incl deps (d_deps (pass_of w self)) -> (forall s, (rk s < rk self)%nat -> ok_at c2 s) -> framed self c1 c2 ->
       exists b c', search isOut isIn w (dependsOn_fuel isOut isIn w f h target) target deps c2 = Some (b, c') /\
         (b = true <-> exists q, In q deps /\ ((isOut (pass_of w q) = true /\ q = target) \/ (isOut (pass_of w q) = false /\ isIn (pass_of w q) = false /\ fp q))) /\
         (forall s, (rk s < rk self)%nat -> ok_at c' s) /\ framed self c1 c').
    { induction deps as [|q deps IHd]; intros c2 Hi Ho Hfr; cbn [search].
      { exists false, c2. split; [reflexivity|]. split; [split; [discriminate|intros (q & [] & _)]|auto]. }
      assert (Hq : needs_pass w self q) by (apply Hi; left; reflexivity).
      assert (Hi' : incl deps (d_deps (pass_of w self))) by (intros x Hx; apply Hi; right; exact Hx).
      destruct (isOut (pass_of w q)) eqn:Eo.
      - destruct (N.eqb_spec target q) as [Et|Et].
        + exists true, c2. split; [reflexivity|]. split; [|auto]. split; [intros _|reflexivity]. exists q. split; [left; reflexivity|left; auto].
        + destruct (IHd c2 Hi' Ho Hfr) as (b & c3 & -> & Hb & Ho3 & Hf3). exists b, c3. split; [reflexivity|]. split; [|auto].
          rewrite Hb. split; intros (x & Hx & Hc); [exists x; split; [right; exact Hx|exact Hc]|].
          destruct Hx as [<-|Hx]; [destruct Hc as [[_ Hc]|[Hc _]]; [congruence|congruence]|exists x; auto].
      - destruct (isIn (pass_of w q)) eqn:Ei.
        + destruct (IHd c2 Hi' Ho Hfr) as (b & c3 & -> & Hb & Ho3 & Hf3). exists b, c3. split; [reflexivity|]. split; [|auto].
          rewrite Hb. split; intros (x & Hx & Hc); [exists x; split; [right; exact Hx|exact Hc]|].
          destruct Hx as [<-|Hx]; [destruct Hc as [[Hc _]|[_ [Hc _]]]; congruence|exists x; auto].
        + pose proof (Hrk self q Hq) as Lq.
          destruct (IH q c2) as (b & c3 & -> & Hb & Ho3 & Hf3); [lia|intros s Hs; apply Ho; lia|].
          assert (Ho3' : forall s, (rk s < rk self)%nat -> ok_at c3 s).
          { intros s Hs. destruct (Nat.le_gt_cases (rk s) (rk q)) as [L|L]; [apply Ho3; exact L|].
            intros b' Hb'. rewrite Hf3 in Hb' by (right; split; [lia|intros ->; lia]). apply (Ho s Hs). exact Hb'. }
          assert (Hfr3 : framed self c1 c3).
          { intros s k Hk. rewrite Hf3 by (destruct Hk as [Hk|[Hk Hs]]; [left; exact Hk|right; split; [lia|intros ->; lia]]). apply Hfr. exact Hk. }
          destruct b.
          * exists true, c3. split; [reflexivity|]. split; [|auto]. split; [intros _|reflexivity]. exists q. split; [left; reflexivity|].
            right. split; [exact Eo|]. split; [exact Ei|]. apply Hb. reflexivity.
          * destruct (IHd c3 Hi' Ho3' Hfr3) as (b & c4 & -> & Hb4 & Ho4 & Hf4). exists b, c4. split; [reflexivity|]. split; [|auto].
            rewrite Hb4. split; intros (x & Hx & Hc); [exists x; split; [right; exact Hx|exact Hc]|].
            destruct Hx as [<-|Hx]; [|exists x; auto]. destruct Hc as [[Hc _]|[_ [_ Hc]]]; [congruence|]. apply Hb in Hc. discriminate. }
    assert (Ho1 : forall s, (rk s < rk self)%nat -> ok_at c1 s).
    { intros s Hs b Hb. unfold c1 in Hb. rewrite cfind_cput in Hb. destruct (N.eqb_spec s self) as [->|]; [lia|]. cbn in Hb. apply (Hok s); [lia|exact Hb]. }
    destruct (S (d_deps (pass_of w self)) c1 (fun x H => H) Ho1 (fun s k _ => eq_refl)) as (b & c' & -> & Hb & Ho & Hfr).
    assert (B : b = true <-> fp self).
    { rewrite Hb. split.
      - intros (q & Hq & [[Eo ->]|(Eo & Ei & Hp)]); [apply fpb_direct; assumption|apply (fpb_through isOut isIn w self q target); assumption].
      - intro Hp. inversion Hp as [? ? Hn Hpr|? q ? Hn Hpr Hco Hq]; subst.
        + exists target. split; [exact Hn|left; auto].
        + exists q. split; [exact Hn|right; auto]. }
    exists b, (cput self h b c'). split; [reflexivity|]. split; [exact B|]. split.
    - intros s Hs b' Hb'. rewrite cfind_cput in Hb'. destruct (N.eqb_spec s self) as [->|Hn].
      + cbn in Hb'. rewrite N.eqb_refl in Hb'. injection Hb' as <-. exact B.
      + cbn in Hb'. destruct (Nat.lt_ge_cases (rk s) (rk self)) as [L|L]; [apply (Ho s L); exact Hb'|].
        destruct (Nat.eq_dec (rk s) (rk self)) as [Er|]; [|lia].
        rewrite Hfr in Hb' by (right; split; [lia|exact Hn]). unfold c1 in Hb'. rewrite cfind_cput in Hb'.
        destruct (N.eqb_spec s self); [contradiction|]. cbn in Hb'. apply (Hok s Hs). exact Hb'.
    - intros s k Hk. rewrite cfind_cput. destruct (N.eqb_spec s self) as [->|Hn].
      + destruct Hk as [Hk|[_ Hk]]; [|contradiction]. cbn. destruct (N.eqb_spec k h); [contradiction|]. rewrite Hfr by (left; exact Hk).
        unfold c1. rewrite cfind_cput. destruct (N.eqb_spec k h); [contradiction|]. rewrite andb_false_r. reflexivity.
      + cbn. rewrite Hfr by exact Hk. unfold c1. rewrite cfind_cput. destruct (N.eqb_spec s self); [contradiction|]. reflexivity.
  Qed.
End Memo.

(* Reading the model predicates. *)
Lemma match_range_iff a b : match_range a b = true <-> N.land (r_aspect a) (r_aspect b) <> 0 /\ same_numbers a b.
Proof.
  unfold match_range, same_numbers. rewrite !andb_true_iff, negb_true_iff, N.eqb_neq, !N.eqb_eq. tauto.
Qed.
Lemma virtual_aspect im t r : r_aspect (getVirtualRange im t r) = r_aspect r.
Proof. unfold getVirtualRange. destruct (andb _ _); reflexivity. Qed.
Lemma match_view_iff a b : match_view a b = true <-> same_data a b.
Proof.
  unfold match_view, same_data, match_typed, numbers_on. rewrite !andb_true_iff, !N.eqb_eq.
  destruct (N.eqb (v_type a) (v_type b)); rewrite match_range_iff, ?virtual_aspect; tauto.
Qed.
Lemma splitAttach_in a l : In l (splitAttach a) -> l = a.
Proof.
  unfold splitAttach, split_of. destruct (v_source (attach_view a 0)) as [|x r].
  - intros [<-|[]]. reflexivity.
  - rewrite in_map_iff. intros (y & <- & _). reflexivity.
Qed.
Lemma splitAttach_self a : In a (splitAttach a).
Proof. unfold splitAttach, split_of. destruct (v_source (attach_view a 0)) as [|x r]; cbn; auto. Qed.
Lemma matchView_iff pred a v : matchView pred a v = true <-> pred a = true /\ exists r, In r (parts v) /\ same_data (viewed a) r.
Proof.
  unfold matchView. rewrite existsb_exists. change (splitView v) with (parts v). split.
  - intros (l & Hl & H). apply splitAttach_in in Hl. subst l. apply existsb_exists in H. destruct H as (r & Hr & H).
    apply andb_true_iff in H. destruct H as [H1 H2]. split; [exact H2|]. exists r. split; [exact Hr|]. apply match_view_iff. exact H1.
  - intros (Hp & r & Hr & H). exists a. split; [apply splitAttach_self|]. apply existsb_exists. exists r. split; [exact Hr|].
    apply andb_true_iff. split; [apply match_view_iff; exact H|exact Hp].
Qed.
Lemma isInOutputs_view_iff v p : isInOutputs_view v p = true <-> writes_view v p.
Proof.
  unfold isInOutputs_view, writes_view. rewrite existsb_exists. split.
  - intros (a & Ha & H). apply matchView_iff in H. destruct H as (Hp & r & Hr & H). exists a, r. auto.
  - intros (a & r & Ha & Hp & Hr & H). exists a. split; [exact Ha|]. apply matchView_iff. split; [exact Hp|]. exists r. auto.
Qed.
Lemma isInInputs_view_iff v p : isInInputs_view v p = true <-> reads_view v p.
Proof.
  unfold isInInputs_view, reads_view. rewrite existsb_exists. split.
  - intros (a & Ha & H). apply matchView_iff in H. destruct H as (Hp & r & Hr & H). exists a, r. auto.
  - intros (a & r & Ha & Hp & Hr & H). exists a. split; [exact Ha|]. apply matchView_iff. split; [exact Hp|]. exists r. auto.
Qed.
Lemma list_eqb_eq {A} (eqb : A -> A -> bool) : (forall x y, eqb x y = true -> x = y) -> forall a b, list_eqb eqb a b = true -> a = b.
Proof.
  intro H. induction a as [|x a IH]; intros [|y b] E; cbn in E; try discriminate; [reflexivity|].
  apply andb_true_iff in E. destruct E as [E1 E2]. rewrite (H x y E1), (IH b E2). reflexivity.
Qed.
Lemma buffer_eqb_iff a b : buffer_eqb a b = true <-> a = b.
Proof.
  split; [apply list_eqb_eq; intros x y; apply N.eqb_eq|]. intros <-. unfold buffer_eqb.
  induction a as [|x a IH]; cbn; [reflexivity|]. rewrite N.eqb_refl. exact IH.
Qed.
Lemma isInOutputs_buffer_iff b p : isInOutputs_buffer b p = true <-> declares_storage b p.
Proof.
  unfold isInOutputs_buffer, declares_storage. rewrite existsb_exists. split; intros (a & H).
  - destruct H as [Ha H]. apply andb_true_iff in H. destruct H as [H1 H2]. apply buffer_eqb_iff in H2. exists a. auto.
  - destruct H as (Ha & H1 & H2). exists a. split; [exact Ha|]. rewrite H1. apply buffer_eqb_iff. exact H2.
Qed.

(* Hashes *)
Lemma lor_shift_low p v : p < 2 ^ 32 -> v < 2 ^ 32 -> N.lor (u64 (N.shiftl p 32)) v = p * 2 ^ 32 + v.
Proof.
  intros Hp Hv. unfold u64. rewrite N.shiftl_mul_pow2, N.mod_small by (cbn in *; lia).
  rewrite <- N.lxor_lor, <- N.add_nocarry_lxor; [reflexivity| |].
  all: apply N.bits_inj_0; intro n; rewrite N.land_spec; destruct (N.lt_ge_cases n 32) as [L|L].
  all: try (rewrite N.mul_pow2_bits_low by exact L; reflexivity).
  all: rewrite andb_false_iff; right; destruct (N.eq_dec v 0) as [->|Hz]; [apply N.bits_0|]; apply N.bits_above_log2; apply N.lt_le_trans with 32; [|exact L]; apply N.log2_lt_pow2; [lia|exact Hv].
Qed.
Lemma makeHash_view_inj p v p' v' : p < 2 ^ 32 -> p' < 2 ^ 32 -> v < 2 ^ 32 -> v' < 2 ^ 32 -> makeHash_view p v = makeHash_view p' v' -> p = p' /\ v = v'.
Proof. intros. unfold makeHash_view in *. rewrite !lor_shift_low in H3 by assumption. cbn in *. lia. Qed.
Lemma land_low x : N.land x (2 ^ 32 - 1) = x mod 2 ^ 32.
Proof. rewrite <- N.land_ones. reflexivity. Qed.
Lemma makeHash_buffer_inj p b p' b' : p < 2 ^ 32 -> p' < 2 ^ 32 ->
  makeHash_buffer p b = makeHash_buffer p' b' <-> p = p' /\ buffer_at b 0 mod 2 ^ 32 = buffer_at b' 0 mod 2 ^ 32.
Proof.
  intros Hp Hp'. unfold makeHash_buffer. rewrite !land_low.
  pose proof (N.mod_lt (buffer_at b 0) (2 ^ 32) ltac:(discriminate)). pose proof (N.mod_lt (buffer_at b' 0) (2 ^ 32) ltac:(discriminate)).
  rewrite !lor_shift_low by assumption. cbn in *. lia.
Qed.

(* A memo table whose entries about the resources of a universe are right, and a search with it. *)
Section Table.
  Context {D : Type} (isOut isIn : D -> dpass -> bool) (key : N -> D -> N) (w : world) (U : D -> Prop).
  Hypothesis Hw : compiled_order w.
  Hypothesis Hkey : forall t d t' d', In t (map d_id w) -> In t' (map d_id w) -> U d -> U d' -> key t d = key t' d' -> t = t' /\ d = d'.
  Definition table_ok (c : dcache) : Prop :=
    forall t d s b, In t (map d_id w) -> U d -> cfind s (key t d) c = Some b -> (b = true <-> fpb (isOut d) (isIn d) w s t).
  Lemma table_empty : table_ok [].
  Proof. intros t d s b _ _ H. discriminate. Qed.
  Lemma table_query t d s c : In t (map d_id w) -> U d -> table_ok c ->
    exists b c', dependsOn_gen (isOut d) (isIn d) w (key t d) t s c = (b, c') /\ (b = true <-> fpb (isOut d) (isIn d) w s t) /\ table_ok c'.
  Proof.
    intros Ht Hd Hc. unfold dependsOn_gen.
    destruct (memo (isOut d) (isIn d) w (key t d) t (rank w) (fun p q => rank_dep w p q Hw) (S (length w)) s c) as (b & c' & -> & Hb & Ho & Hf).
    - pose proof (rank_le w s). lia.
    - intros s' _ b Hb. apply (Hc t d s' b Ht Hd Hb).
    - exists b, c'. split; [reflexivity|]. split; [exact Hb|].
      intros t' d' s' b' Ht' Hd' Hb'. destruct (N.eq_dec (key t' d') (key t d)) as [E|E].
      + destruct (Hkey t' d' t d Ht' Ht Hd' Hd E) as [-> ->]. destruct (le_lt_dec (rank w s') (rank w s)) as [L|L].
        * apply (Ho s' L). exact Hb'.
        * rewrite Hf in Hb' by (right; split; [lia|intros ->; lia]). apply (Hc t d s' b' Ht Hd Hb').
      + rewrite Hf in Hb' by (left; exact E). apply (Hc t' d' s' b' Ht' Hd' Hb').
  Qed.
End Table.

Lemma fuel_more isOut isIn w h t : forall f self c r, dependsOn_fuel isOut isIn w f h t self c = Some r -> dependsOn_fuel isOut isIn w (S f) h t self c = Some r.
Proof.
  induction f as [|f IH]; intros self c r H; [discriminate|]. cbn [dependsOn_fuel] in H.
  change (match cfind self h c with Some b => Some (b, c) | None =>
    match search isOut isIn w (dependsOn_fuel isOut isIn w (S f) h t) t (d_deps (pass_of w self)) (cput self h false c) with
    | None => None | Some (b, c') => Some (b, cput self h b c') end end = Some r).
  destruct (cfind self h c); [exact H|].
  assert (S : forall deps c r, search isOut isIn w (dependsOn_fuel isOut isIn w f h t) t deps c = Some r -> search isOut isIn w (dependsOn_fuel isOut isIn w (S f) h t) t deps c = Some r).
  { induction deps as [|q deps IHd]; intros c0 r0; cbn [search]; [auto|]. destruct (isOut (pass_of w q)).
    - destruct (N.eqb t q); [auto|apply IHd].
    - destruct (isIn (pass_of w q)); [apply IHd|]. destruct (dependsOn_fuel isOut isIn w f h t q c0) as [[b c1]|] eqn:E; [|discriminate].
      rewrite (IH q c0 (b, c1) E). destruct b; [auto|apply IHd]. }
  destruct (search isOut isIn w (dependsOn_fuel isOut isIn w f h t) t (d_deps (pass_of w self)) (cput self h false c)) as [[b c']|] eqn:E; [|discriminate].
  rewrite (S _ _ _ E). exact H.
Qed.
Lemma fuel_any isOut isIn w h t self c : exists r, forall f, (S (length w) <= f)%nat -> dependsOn_fuel isOut isIn w f h t self c = Some r.
Proof.
  destruct (terminates isOut isIn w h t (S (length w)) self c) as (b & c' & E & _).
  { assert (L : (unknown w h c <= length w)%nat) by (eapply unknown_le; eassumption). lia. }
  exists (b, c'). intros f Hf. assert (F : exists m, f = (m + S (length w))%nat) by (exists (f - S (length w))%nat; lia). destruct F as (m & ->). clear Hf.
  induction m as [|m IH]; [exact E|]. cbn [Nat.add]. apply fuel_more. exact IH.
Qed.

Lemma ask_views_ok w : compiled_order w -> pass_ids_ok w -> forall all qs c, view_ids_ok (map vq_view all) -> incl qs all ->
  (forall q, In q all -> In (vq_target q) (map d_id w)) ->
  table_ok isInOutputs_view isInInputs_view (fun t v => makeHash_view t (v_id v)) w (fun v => In v (map vq_view all)) c ->
  Forall2 (fun q b => b = true <-> first_producer (writes_view (vq_view q)) (reads_view (vq_view q)) w (vq_self q) (vq_target q)) qs (ask_views w qs c).
Proof.
  intros Hw Hp all qs. induction qs as [|q qs IH]; intros c Hv Hi Ht Hc; cbn [ask_views]; [constructor|].
  assert (Hkey : forall t d t' d', In t (map d_id w) -> In t' (map d_id w) -> In d (map vq_view all) -> In d' (map vq_view all) -> makeHash_view t (v_id d) = makeHash_view t' (v_id d') -> t = t' /\ d = d').
  { intros t d t' d' H1 H2 H3 H4 E. destruct Hv as [V1 V2].
    assert (B : forall t, In t (map d_id w) -> t < 2 ^ 32) by (intros x Hx; apply in_map_iff in Hx; destruct Hx as (p & <- & Hx); apply Hp; exact Hx).
    destruct (makeHash_view_inj t (v_id d) t' (v_id d') (B t H1) (B t' H2) (V1 d H3) (V1 d' H4) E) as [-> E2]. split; [reflexivity|apply V2; assumption]. }
  assert (Hq : In q all) by (apply Hi; left; reflexivity).
  destruct (table_query isInOutputs_view isInInputs_view (fun t v => makeHash_view t (v_id v)) w (fun v => In v (map vq_view all)) Hw Hkey (vq_target q) (vq_view q) (vq_self q) c (Ht q Hq) (in_map _ _ _ Hq) Hc) as (b & c' & E & Hb & Hc').
  unfold dependsOn_view. rewrite E. constructor.
  - rewrite Hb. apply fpb_iff; [apply isInOutputs_view_iff|apply isInInputs_view_iff].
  - apply IH; auto. intros x Hx. apply Hi. right. exact Hx.
Qed.
Lemma ask_buffers_ok w : compiled_order w -> pass_ids_ok w -> forall all qs c, buffer_ids_ok (map bq_buffer all) -> incl qs all ->
  (forall q, In q all -> In (bq_target q) (map d_id w)) ->
  table_ok isInOutputs_buffer isInInputs_buffer makeHash_buffer w (fun v => In v (map bq_buffer all)) c ->
  Forall2 (fun q b => b = true <-> first_producer (declares_storage (bq_buffer q)) (declares_storage (bq_buffer q)) w (bq_self q) (bq_target q)) qs (ask_buffers w qs c).
Proof.
  intros Hw Hp all qs. induction qs as [|q qs IH]; intros c Hv Hi Ht Hc; cbn [ask_buffers]; [constructor|].
  assert (Hkey : forall t d t' d', In t (map d_id w) -> In t' (map d_id w) -> In d (map bq_buffer all) -> In d' (map bq_buffer all) -> makeHash_buffer t d = makeHash_buffer t' d' -> t = t' /\ d = d').
  { intros t d t' d' H1 H2 H3 H4 E.
    assert (B : forall t, In t (map d_id w) -> t < 2 ^ 32) by (intros x Hx; apply in_map_iff in Hx; destruct Hx as (p & <- & Hx); apply Hp; exact Hx).
    apply (makeHash_buffer_inj t d t' d' (B t H1) (B t' H2)) in E. destruct E as [-> E]. split; [reflexivity|]. apply Hv; assumption. }
  assert (Hq : In q all) by (apply Hi; left; reflexivity).
  destruct (table_query isInOutputs_buffer isInInputs_buffer makeHash_buffer w (fun v => In v (map bq_buffer all)) Hw Hkey (bq_target q) (bq_buffer q) (bq_self q) c (Ht q Hq) (in_map _ _ _ Hq) Hc) as (b & c' & E & Hb & Hc').
  unfold dependsOn_buffer. rewrite E. constructor.
  - rewrite Hb. apply fpb_iff; apply isInOutputs_buffer_iff.
  - apply IH; auto. intros x Hx. apply Hi. right. exact Hx.
Qed.

(* Ranges *)
Lemma inRange_iff v l c : l + c < 2 ^ 32 -> (isInRange v l c = true <-> l <= v < l + c).
Proof. intro H. unfold isInRange, u32. rewrite N.mod_small by exact H. lia. Qed.
Lemma intersect1_iff a ac b bc : a + ac < 2 ^ 32 -> b + bc < 2 ^ 32 -> 0 < ac -> 0 < bc ->
  (areIntersecting_1 a ac b bc = true <-> exists x, a <= x < a + ac /\ b <= x < b + bc).
Proof.
  intros H1 H2 H3 H4. unfold areIntersecting_1. rewrite orb_true_iff, !inRange_iff by assumption. split.
  - intros [H|H]; [exists a|exists b]; lia.
  - intros (x & Hx). lia.
Qed.
Lemma intersect_iff a b : proper_range a -> proper_range b -> r_layer b + r_layers a < 2 ^ 32 ->
  (areIntersecting a b = true <-> share_subresource a {| r_aspect := r_aspect b; r_mip := r_mip b; r_levels := r_levels b; r_layer := r_layer b; r_layers := r_layers a |}).
Proof.
  intros (A1 & A2 & A3 & A4) (B1 & B2 & B3 & B4) H. unfold areIntersecting, share_subresource, in_range. cbn.
  rewrite andb_true_iff, !intersect1_iff by assumption. split.
  - intros [(m & Hm) (l & Hl)]. exists l, m. lia.
  - intros (l & m & Hl). split; [exists m; lia|exists l; lia].
Qed.
Lemma share_iff a b : 0 < r_levels a -> 0 < r_levels b -> 0 < r_layers a -> 0 < r_layers b ->
  (share_subresource a b <-> (r_mip a < r_mip b + r_levels b /\ r_mip b < r_mip a + r_levels a) /\ (r_layer a < r_layer b + r_layers b /\ r_layer b < r_layer a + r_layers a)).
Proof.
  intros. unfold share_subresource, in_range. split.
  - intros (l & m & Hx). lia.
  - intros [M L]. exists (N.max (r_layer a) (r_layer b)), (N.max (r_mip a) (r_mip b)). lia.
Qed.
Lemma numbers_def v : getVirtualRange (v_image v) (v_type v) (v_range v) = numbers v.
Proof. reflexivity. Qed.
Lemma overlap_other_image a b : i_id (v_image a) <> i_id (v_image b) -> areOverlapping_view a b = false.
Proof. intro H. unfold areOverlapping_view. apply N.eqb_neq in H. rewrite H. reflexivity. Qed.
Lemma overlap_view_ok a b : proper_range (numbers a) -> proper_range (numbers b) ->
  r_layer (numbers b) + r_layers (numbers a) < 2 ^ 32 -> i_id (v_image a) = i_id (v_image b) ->
  (r_layers (numbers a) = r_layers (numbers b) ->
     (areOverlapping_view a b = true <-> share_subresource (numbers a) (numbers b)) /\ areOverlapping_view a b = areOverlapping_view b a) /\
  (r_layers (numbers b) <= r_layers (numbers a) -> share_subresource (numbers a) (numbers b) -> areOverlapping_view a b = true) /\
  (r_layers (numbers a) <= r_layers (numbers b) -> areOverlapping_view a b = true -> share_subresource (numbers a) (numbers b)).
Proof.
  intros Pa Pb H Hi. pose proof Pa as (A1 & A2 & A3 & A4). pose proof Pb as (B1 & B2 & B3 & B4).
  unfold areOverlapping_view. rewrite !numbers_def, Hi, !N.eqb_refl. cbn [andb].
  pose proof (intersect_iff (numbers a) (numbers b) Pa Pb H) as E. rewrite share_iff in E by assumption. cbn in E.
  rewrite !share_iff by assumption. split; [|split].
  - intro L. split; [rewrite E; lia|]. rewrite L in H.
    pose proof (intersect_iff (numbers b) (numbers a) Pb Pa ltac:(lia)) as E'. rewrite share_iff in E' by assumption. cbn in E'.
    destruct (areIntersecting (numbers a) (numbers b)), (areIntersecting (numbers b) (numbers a)); try reflexivity; lia.
  - intros L S. apply E. lia.
  - intros L S. apply E in S. lia.
Qed.
Lemma match_refl a : r_aspect (v_range a) <> 0 -> match_view a a = true.
Proof.
  intro H. apply match_view_iff. unfold same_data. rewrite N.eqb_refl, N.land_diag. unfold same_numbers. tauto.
Qed.
Lemma match_sym a b : (i_id (v_image a) = i_id (v_image b) -> v_image a = v_image b) -> match_view a b = match_view b a.
Proof.
  intro Hi.
  assert (S : forall a b, (i_id (v_image a) = i_id (v_image b) -> v_image a = v_image b) -> match_view a b = true -> match_view b a = true).
  { clear. intros a b Hi H. apply match_view_iff in H. apply match_view_iff. destruct H as (E1 & E2 & E3 & E4 & E5). unfold same_data.
    rewrite N.eqb_sym, N.land_comm. rewrite (Hi E1) in E5. unfold same_numbers in *. repeat split; try congruence.
    destruct (N.eqb (v_type a) (v_type b)); destruct E5 as (? & ? & ? & ?); auto. }
  pose proof (S a b Hi) as H1. pose proof (S b a (fun E => eq_sym (Hi (eq_sym E)))) as H2.
  destruct (match_view a b), (match_view b a); try reflexivity; [symmetry; apply H1; reflexivity|apply H2; reflexivity].
Qed.
Lemma virtual_same im t r r' : same_numbers r r' -> same_numbers (getVirtualRange im t r) (getVirtualRange im t r').
Proof.
  intros (E1 & E2 & E3 & E4). unfold getVirtualRange. rewrite E2. destruct (andb _ _); unfold same_numbers; cbn; rewrite ?E1, ?E3, ?E4; auto.
Qed.
Lemma same_numbers_on a b im : same_data a b -> v_image a = im -> same_numbers (numbers_on im a) (numbers_on im b).
Proof.
  intros (_ & _ & _ & _ & H) <-. unfold numbers_on. destruct (N.eqb_spec (v_type a) (v_type b)) as [E|E]; [rewrite <- E; apply virtual_same; exact H|exact H].
Qed.
Lemma match_numbers a b : (i_id (v_image a) = i_id (v_image b) -> v_image a = v_image b) -> match_view a b = true ->
  v_image a = v_image b /\ forall layer mip, in_range (numbers a) layer mip <-> in_range (numbers b) layer mip.
Proof.
  intros Hi H. apply match_view_iff in H. pose proof (same_numbers_on a b (v_image a) H eq_refl) as S. destruct H as (E & _). specialize (Hi E).
  split; [exact Hi|]. unfold numbers. rewrite <- Hi. destruct S as (S1 & S2 & S3 & S4). intros l m. unfold in_range. rewrite S1, S2, S3, S4. reflexivity.
Qed.
Lemma virtual_not3d im t r : t <> VT_3D -> getVirtualRange im t r = r.
Proof. intro H. unfold getVirtualRange. apply N.eqb_neq in H. rewrite H. reflexivity. Qed.
Lemma match_trans a b c : (i_id (v_image a) = i_id (v_image b) -> v_image a = v_image b) -> (i_id (v_image b) = i_id (v_image c) -> v_image b = v_image c) ->
  r_aspect (v_range a) = r_aspect (v_range b) -> v_type a <> VT_3D ->
  match_view a b = true -> match_view b c = true -> match_view a c = true.
Proof.
  intros Hab Hbc Ha Ht H1 H2. apply match_view_iff in H1, H2. apply match_view_iff.
  pose proof (same_numbers_on a b (v_image a) H1 eq_refl) as S1. destruct H1 as (E1 & F1 & G1 & _ & _). specialize (Hab E1).
  pose proof (same_numbers_on b c (v_image a) H2 (eq_sym Hab)) as S2. destruct H2 as (E2 & F2 & G2 & A2 & _).
  assert (S : same_numbers (numbers_on (v_image a) a) (numbers_on (v_image a) c)).
  { destruct S1 as (? & ? & ? & ?). destruct S2 as (? & ? & ? & ?). unfold same_numbers. repeat split; congruence. }
  unfold same_data. repeat split; try congruence. destruct (N.eqb_spec (v_type a) (v_type c)) as [E|E]; [|exact S].
  unfold numbers_on in S. rewrite <- E in S. rewrite !virtual_not3d in S by exact Ht. exact S.
Qed.
