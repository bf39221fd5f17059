(* Proofs about the configurations: the value of an option after a sequence of calls, whatever the configuration. *)
From Verif Require Export Spec_Config Proof_Layout.
From Coq Require Import ZArith PeanoNat Lia.
Local Open Scope N_scope.

Section Options.
Context {C S A : Type} (set : S -> C -> S) (get : S -> option A) (gives : C -> option A).
Hypothesis Set_get : forall s o, get (set s o) = match gives o with Some a => Some a | None => get s end.

Lemma unset_fold l : forall s, unset gives l -> get (fold_left set l s) = get s.
Proof.
  induction l as [|o r IH]; intros s U; [reflexivity|]. cbn [fold_left].
  rewrite IH by (intros o' In_o'; apply U; now right). rewrite Set_get, (U o (or_introl eq_refl)). reflexivity.
Qed.
Lemma given_fold l s a : given gives l a -> get (fold_left set l s) = Some a.
Proof.
  intros (before & o & after & -> & G & After). rewrite fold_left_app. cbn [fold_left].
  rewrite unset_fold by exact After. rewrite Set_get, G. reflexivity.
Qed.
Lemma takes_fold l s d : get s = None -> takes gives l d (or_default d (get (fold_left set l s))).
Proof.
  intros None_s. split; [intros a G; rewrite (given_fold l s a G); reflexivity | intros U; rewrite unset_fold by exact U; rewrite None_s; reflexivity].
Qed.
Lemma option_fold l s : get s = None ->
  (forall a, given gives l a -> get (fold_left set l s) = Some a) /\ (unset gives l -> get (fold_left set l s) = None).
Proof. intros None_s. split; [intros a G; exact (given_fold l s a G) | intros U; rewrite unset_fold by exact U; exact None_s]. Qed.
End Options.

(* Every option is given or unset *)
Lemma given_or_unset {C A} (gives : C -> option A) l : (exists a, given gives l a) \/ unset gives l.
Proof.
  induction l as [|o r [(a & before & o' & after & -> & G & After)|U]].
  - right. intros o [].
  - left. exists a, (o :: before), o', after. auto.
  - destruct (gives o) as [a|] eqn:G.
    + left. exists a, [], o, r. auto.
    + right. intros o' [->|In_o']; [exact G | exact (U o' In_o')].
Qed.

(* The base configuration *)
Section Base.
Context {C S : Type} (set : S -> C -> S) (base : S -> pp_config) (direct : C -> option pp_call) (whole : C -> option (list pp_call)).
Hypothesis Set_base : forall s o, base (set s o) =
  match whole o, direct o with Some b, _ => pp_build b | None, Some c => pp_set (base s) c | None, None => base s end.
Lemma base_fold l : forall s so_far, base s = pp_build so_far -> base (fold_left set l s) = pp_build (pipeline_calls direct whole so_far l).
Proof.
  induction l as [|o r IH]; intros s so_far E; [exact E|]. cbn [fold_left pipeline_calls].
  destruct (whole o) as [b|] eqn:W; [|destruct (direct o) as [c|] eqn:D]; apply IH; rewrite Set_base, W, ?D, ?E; try reflexivity.
  unfold pp_build. rewrite fold_left_app. reflexivity.
Qed.
End Base.

(* The pipeline *)
Lemma resize_length n l : length (resize n l) = n.
Proof. unfold resize. rewrite app_length, firstn_length, repeat_length. lia. Qed.
Lemma set_nth_length_ {A} i (x : A) l : length (set_nth i x l) = length l.
Proof. revert i. induction l as [|y r IH]; intros [|i]; cbn; auto. Qed.
Lemma nth_error_set {A} i (x : A) l : (i < length l)%nat -> nth_error (set_nth i x l) i = Some x.
Proof. revert i. induction l as [|y r IH]; intros [|i] Lt; cbn in *; try lia; [reflexivity | apply IH; lia]. Qed.

Ltac step_option := intros [] []; reflexivity.
Lemma pp_layouts_takes l : takes gives_layouts l [] (pd_layouts (pp_resolve (pp_build l))).
Proof. apply (takes_fold pp_set po_layouts gives_layouts ltac:(step_option) l pp_new); reflexivity. Qed.
Lemma pp_push_takes l : takes gives_push l [] (pd_push (pp_resolve (pp_build l))).
Proof. apply (takes_fold pp_set po_push gives_push ltac:(step_option) l pp_new); reflexivity. Qed.
Lemma pp_creator_takes l : takes gives_creator l no_creator (pd_creator (pp_resolve (pp_build l))).
Proof. apply (takes_fold pp_set po_creator gives_creator ltac:(step_option) l pp_new); reflexivity. Qed.
Lemma pp_programs_takes l : takes gives_programs l [] (or_default [] (po_programs (pp_build l))).
Proof. apply (takes_fold pp_set po_programs gives_programs ltac:(step_option) l pp_new); reflexivity. Qed.

Lemma pp_created l cr f : given gives_creator l cr -> cr_create cr = Some f ->
  pd_pipelines (pp_resolve (pp_build l)) = cr_max cr /\
  forall i, pp_program (pp_resolve (pp_build l)) i = if Nat.ltb i (cr_max cr) then Some (f i) else None.
Proof.
  intros G F. pose proof (proj1 (pp_creator_takes l) cr G) as E. cbn [pp_resolve pd_creator] in E.
  unfold pp_program, pp_resolve; cbn [pd_pipelines pd_creator pd_programs]. rewrite E, F. split; [reflexivity|]. intros i.
  destruct (Nat.ltb i (cr_max cr)) eqn:Lt; [|reflexivity]. apply Nat.ltb_lt in Lt.
  rewrite set_nth_length_, resize_length. destruct (Nat.eqb (cr_max cr) 1) eqn:One; [|apply nth_error_set; rewrite resize_length; exact Lt].
  apply Nat.eqb_eq in One. assert (i = 0%nat) as -> by lia. apply nth_error_set. rewrite resize_length. lia.
Qed.
Lemma pp_listed l ps : (forall cr, given gives_creator l cr -> cr_create cr = None) ->
  (given gives_programs l ps \/ unset gives_programs l /\ ps = []) ->
  pd_pipelines (pp_resolve (pp_build l)) = length ps /\
  forall i, pp_program (pp_resolve (pp_build l)) i = nth_error ps (if Nat.eqb (length ps) 1 then 0 else i)%nat.
Proof.
  intros No Gp.
  assert (cr_create (or_default no_creator (po_creator (pp_build l))) = None) as E.
  { destruct (given_or_unset gives_creator l) as [(cr & G)|U].
    - pose proof (proj1 (pp_creator_takes l) cr G) as E. cbn [pp_resolve pd_creator] in E. rewrite E. exact (No cr G).
    - pose proof (proj2 (pp_creator_takes l) U) as E. cbn [pp_resolve pd_creator] in E. rewrite E. reflexivity. }
  assert (or_default [] (po_programs (pp_build l)) = ps) as Ep
    by (destruct Gp as [G|(U & ->)]; [exact (proj1 (pp_programs_takes l) ps G) | exact (proj2 (pp_programs_takes l) U)]).
  unfold pp_program, pp_resolve; cbn [pd_pipelines pd_creator pd_programs]. rewrite E, Ep. split; [reflexivity|]. intros i.
  destruct (Nat.eqb (length ps) 1); reflexivity.
Qed.

(* The options common to all passes *)
Fixpoint first_of (k : N) (l : list ru_call) : option (view * action) :=
  match l with
  | [] => None
  | RuImplicit v a :: r => if N.eqb k (v_id v) then Some (v, a) else first_of k r
  | _ :: r => first_of k r
  end.
Lemma ru_implicit_find k l : forall c, mfind k (ru_implicit (fold_left ru_set l c)) = match mfind k (ru_implicit c) with Some x => Some x | None => first_of k l end.
Proof.
  induction l as [|o r IH]; intros [n re pre post im]; cbn [fold_left first_of ru_implicit].
  - destruct (mfind k im); reflexivity.
  - rewrite IH. destruct o as [n'|b|a|a|v a]; cbn [ru_set ru_implicit]; try reflexivity.
    rewrite mfind_minsert. destruct (mfind k im); [reflexivity|]. destruct (N.eqb k (v_id v)); reflexivity.
Qed.
Lemma first_of_spec k l v a : first_of k l = Some (v, a) <-> v_id v = k /\ first_action l v a.
Proof.
  induction l as [|o r IH].
  - split; [discriminate|]. intros (_ & b & af & E & _). destruct b; discriminate.
  - assert (first_of k (o :: r) = match o with RuImplicit v' a' => if N.eqb k (v_id v') then Some (v', a') else first_of k r | _ => first_of k r end) as -> by (destruct o; reflexivity).
    split.
    + intros E. assert ((exists v' a', o = RuImplicit v' a' /\ k = v_id v' /\ (v', a') = (v, a)) \/
        first_of k r = Some (v, a) /\ forall v' a', o = RuImplicit v' a' -> k <> v_id v') as [(v' & a' & -> & -> & P)|(F & No)].
      { destruct o as [n'|b|a'|a'|v' a']; try (right; split; [exact E|discriminate]).
        destruct (N.eqb_spec k (v_id v')); [left; exists v', a'; split; [reflexivity|]; split; congruence|].
        right. split; [exact E|]. intros ? ? H. injection H as <- <-. assumption. }
      * injection P as <- <-. split; [reflexivity|]. exists [], r. split; [reflexivity|]. intros ? ? [].
      * apply IH in F as (Ek & b & af & -> & F). split; [exact Ek|]. exists (o :: b), af. split; [reflexivity|].
        intros v' a' [H|H]; [intros C; apply (No v' a' H); congruence | exact (F v' a' H)].
    + intros (Ek & b & af & E & F). destruct b as [|o' b].
      * injection E as -> ->. rewrite <- Ek, N.eqb_refl. reflexivity.
      * cbn [app] in E. injection E as <- ->.
        assert (first_of k (b ++ RuImplicit v a :: af) = Some (v, a)) as R.
        { apply IH. split; [exact Ek|]. exists b, af. split; [reflexivity|]. intros v' a' H. exact (F v' a' (or_intror H)). }
        destruct o as [n'|bb|a'|a'|v' a']; try exact R.
        destruct (N.eqb_spec k (v_id v')) as [C|]; [exfalso; apply (F v' a' (or_introl eq_refl)); congruence | exact R].
Qed.

Lemma sorted_find {V} (m : nmap V) k x : keys_sorted m -> In (k, x) m -> mfind k m = Some x.
Proof.
  unfold keys_sorted. induction m as [|[k' x'] r IH]; intros So H; [destruct H|]. cbn [map fst] in So. apply Sorted.StronglySorted_inv in So as (So & F).
  cbn [mfind]. destruct H as [H|H]; [injection H as -> ->; rewrite N.eqb_refl; reflexivity|].
  destruct (N.eqb_spec k k') as [->|]; [|exact (IH So H)].
  exfalso. rewrite Forall_forall in F. specialize (F k' (in_map fst _ _ H)). lia.
Qed.
Lemma find_in {V} (m : nmap V) k x : mfind k m = Some x -> In (k, x) m.
Proof.
  induction m as [|[k' x'] r IH]; cbn [mfind]; [discriminate|]. destruct (N.eqb_spec k k') as [->|]; intros H; [injection H as ->; now left | right; auto].
Qed.
Lemma minsert_keys_sorted {V} k (x : V) m : keys_sorted m -> keys_sorted (minsert k x m).
Proof. intros So. unfold minsert. destruct (mfind k m); [exact So | apply mput_sorted; exact So]. Qed.
Lemma in_mput {V} k (x : V) m e : In e (mput k x m) -> e = (k, x) \/ In e m.
Proof.
  induction m as [|[k' x'] r IH]; cbn [mput]; [intros [H|[]]; auto|].
  destruct (N.eqb k k'); [intros [H|H]; auto; right; now right|]. destruct (N.ltb k k'); [intros [H|H]; auto|].
  intros [H|H]; [right; now left|]. destruct (IH H); [auto | right; now right].
Qed.
Definition keyed (m : nmap (view * action)) : Prop := keys_sorted m /\ forall k x, In (k, x) m -> k = v_id (fst x).
Lemma ru_keyed l : forall c, keyed (ru_implicit c) -> keyed (ru_implicit (fold_left ru_set l c)).
Proof.
  induction l as [|o r IH]; intros [n re pre post im] K; [exact K|]. cbn [fold_left]. apply IH.
  destruct o as [n'|b|a|a|v a]; cbn [ru_set ru_implicit] in *; try exact K. destruct K as (K1 & K2).
  split; [apply minsert_keys_sorted; exact K1|]. intros k x H. unfold minsert in H. destruct (mfind (v_id v) im); [exact (K2 k x H)|].
  apply in_mput in H as [H|H]; [injection H as -> ->; reflexivity | exact (K2 k x H)].
Qed.
Lemma implicit_is_first l v a : In (v, a) (map snd (ru_implicit (ru_build l))) <-> first_action l v a.
Proof.
  pose proof (ru_keyed l ru_new ltac:(split; [constructor | intros ? ? []])) as (K1 & K2). fold (ru_build l) in K1, K2.
  pose proof (fun k => ru_implicit_find k l ru_new) as F. fold (ru_build l) in F. cbn [ru_new ru_implicit mfind] in F.
  rewrite in_map_iff. split.
  - intros ([k x] & E & H). cbn [snd] in E. subst x. pose proof (sorted_find _ k _ K1 H) as E. rewrite F in E. apply first_of_spec in E. apply E.
  - intros A. exists (v_id v, (v, a)). split; [reflexivity|]. apply find_in. rewrite F. apply first_of_spec. split; [reflexivity | exact A].
Qed.
Lemma implicit_once l v a v' a' : In (v, a) (map snd (ru_implicit (ru_build l))) -> In (v', a') (map snd (ru_implicit (ru_build l))) ->
  v_id v = v_id v' -> v = v' /\ a = a'.
Proof.
  pose proof (ru_keyed l ru_new ltac:(split; [constructor | intros ? ? []])) as (K1 & K2). fold (ru_build l) in K1, K2.
  rewrite !in_map_iff. intros ([k x] & E & H) ([k' x'] & E' & H') I. cbn [snd] in E, E'. subst x x'.
  pose proof (K2 _ _ H) as Q. pose proof (K2 _ _ H') as Q'. cbn [fst] in Q, Q'. subst k k'.
  apply (sorted_find _ _ _ K1) in H, H'. rewrite I in H. rewrite H in H'. injection H' as <- <-. auto.
Qed.
Lemma ru_pre_all l : forall c, ru_pre (fold_left ru_set l c) = ru_pre c ++ flat_map run_pre l.
Proof.
  induction l as [|o r IH]; intros [n re pre post im]; cbn [fold_left flat_map]; [rewrite app_nil_r; reflexivity|].
  rewrite IH. destruct o; cbn [ru_set ru_pre run_pre app]; rewrite <- ?app_assoc; reflexivity.
Qed.
Lemma ru_post_all l : forall c, ru_post (fold_left ru_set l c) = ru_post c ++ flat_map run_post l.
Proof.
  induction l as [|o r IH]; intros [n re pre post im]; cbn [fold_left flat_map]; [rewrite app_nil_r; reflexivity|].
  rewrite IH. destruct o; cbn [ru_set ru_post run_post app]; rewrite <- ?app_assoc; reflexivity.
Qed.
Lemma ru_max_takes l : takes run_max l 1%nat (ru_max (ru_build l)).
Proof.
  assert (forall c, ru_max (fold_left ru_set l c) = or_default (ru_max c) (fold_left (fun x o => match run_max o with Some a => Some a | None => x end) l None)) as E.
  { clear. induction l as [|o r IH] using rev_ind; intros c; [reflexivity|]. rewrite !fold_left_app. cbn [fold_left]. specialize (IH c).
    destruct (fold_left ru_set r c) as [n1 r1 p1 q1 i1]. destruct o; cbn [ru_set ru_max run_max or_default] in *; try exact IH; reflexivity. }
  unfold ru_build. rewrite E. apply (takes_fold (fun x o => match run_max o with Some a => Some a | None => x end) (fun x => x) run_max); reflexivity.
Qed.
Lemma ru_resettable_takes l : takes run_resettable l false (ru_resettable (ru_build l)).
Proof.
  assert (forall c, ru_resettable (fold_left ru_set l c) = or_default (ru_resettable c) (fold_left (fun x o => match run_resettable o with Some a => Some a | None => x end) l None)) as E.
  { clear. induction l as [|o r IH] using rev_ind; intros c; [reflexivity|]. rewrite !fold_left_app. cbn [fold_left]. specialize (IH c).
    destruct (fold_left ru_set r c) as [n1 r1 p1 q1 i1]. destruct o; cbn [ru_set ru_resettable run_resettable or_default] in *; try exact IH; reflexivity. }
  unfold ru_build. rewrite E. apply (takes_fold (fun x o => match run_resettable o with Some a => Some a | None => x end) (fun x => x) run_resettable); reflexivity.
Qed.

(* Calls on different options commute *)
Lemma pp_commute c a b : pp_independent a b -> pp_set (pp_set c a) b = pp_set (pp_set c b) a.
Proof. destruct c, a, b; intros H; try (exfalso; apply H; reflexivity); reflexivity. Qed.
Lemma rq_commute c a b : rq_independent a b -> rq_set (rq_set c a) b = rq_set (rq_set c b) a.
Proof.
  intros [H|(x & y & -> & -> & H)]; [destruct c, a, b; try (exfalso; apply H; reflexivity); reflexivity|].
  destruct c. cbn [rq_set]. f_equal. apply pp_commute. exact H.
Qed.
Lemma rm_commute c a b : rm_independent a b -> rm_set (rm_set c a) b = rm_set (rm_set c b) a.
Proof.
  intros [H|(x & y & -> & -> & H)]; [destruct c, a, b; try (exfalso; apply H; reflexivity); reflexivity|].
  destruct c. cbn [rm_set]. f_equal. apply pp_commute. exact H.
Qed.
Lemma cp_commute c a b : cp_independent a b -> cp_set (cp_set c a) b = cp_set (cp_set c b) a.
Proof.
  intros [H|(x & y & -> & -> & H)]; [destruct c, a, b; try (exfalso; apply H; reflexivity); reflexivity|].
  destruct c. cbn [cp_set]. f_equal. apply pp_commute. exact H.
Qed.
