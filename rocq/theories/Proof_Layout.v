From Verif Require Import Spec_Layout.
From Coq Require Import Sorted Arith ZifyBool ZifyNat ZifyN.
Local Open Scope N_scope.
Arguments N.add : simpl never.
Arguments N.shiftr : simpl never.

(* ---------- std::map ---------- *)
Lemma mfind_mput_same {V} k (v : V) m : mfind k (mput k v m) = Some v.
Proof.
  induction m as [|[k' v'] r IH]; simpl; [rewrite N.eqb_refl; reflexivity|].
  destruct (N.eqb k k') eqn:E; simpl; [rewrite N.eqb_refl; reflexivity|].
  destruct (N.ltb k k'); simpl; [rewrite N.eqb_refl; reflexivity|]. rewrite E. exact IH.
Qed.

Lemma mfind_mput_other {V} k q (v : V) m : q <> k -> mfind q (mput k v m) = mfind q m.
Proof.
  intro Hne. induction m as [|[k' v'] r IH]; simpl.
  - destruct (N.eqb_spec q k); [contradiction|reflexivity].
  - destruct (N.eqb_spec k k') as [<-|Hk]; simpl.
    + destruct (N.eqb_spec q k); [contradiction|reflexivity].
    + destruct (N.ltb k k'); simpl.
      * destruct (N.eqb_spec q k); [contradiction|reflexivity].
      * destruct (N.eqb q k'); [reflexivity|exact IH].
Qed.

Lemma mfind_mput {V} k q (v : V) m : mfind q (mput k v m) = if N.eqb q k then Some v else mfind q m.
Proof.
  destruct (N.eqb_spec q k) as [->|H]; [apply mfind_mput_same|apply mfind_mput_other; exact H].
Qed.

Lemma mfind_minsert {V} k q (v : V) m :
  mfind q (minsert k v m) = match mfind q m with Some x => Some x | None => if N.eqb q k then Some v else None end.
Proof.
  unfold minsert. destruct (mfind k m) as [x|] eqn:E.
  - destruct (mfind q m) eqn:Eq; [reflexivity|]. destruct (N.eqb_spec q k) as [->|]; [congruence|reflexivity].
  - rewrite mfind_mput. destruct (N.eqb_spec q k) as [->|]; [rewrite E; reflexivity|]. destruct (mfind q m); reflexivity.
Qed.

Definition keys_sorted {V} (m : nmap V) : Prop := StronglySorted N.lt (map fst m).

Lemma mput_keys {V} k (v : V) m x : In x (map fst (mput k v m)) <-> x = k \/ In x (map fst m).
Proof.
  induction m as [|[k' v'] r IH]; simpl; [intuition|].
  destruct (N.eqb_spec k k') as [<-|Hk]; simpl; [intuition|].
  destruct (N.ltb k k'); simpl; [intuition|]. rewrite IH. intuition.
Qed.

Lemma mput_sorted {V} k (v : V) m : keys_sorted m -> keys_sorted (mput k v m).
Proof.
  unfold keys_sorted. induction m as [|[k' v'] r IH]; simpl; intro H; [repeat constructor|].
  inversion H as [|? ? Hs Hf]; subst.
  destruct (N.eqb_spec k k') as [<-|Hk]; simpl; [constructor; auto|].
  destruct (N.ltb_spec k k'); simpl.
  - constructor; [exact H|]. constructor; [assumption|]. rewrite Forall_forall in *. intros x Hx. specialize (Hf x Hx). lia.
  - constructor; [apply IH; exact Hs|]. rewrite Forall_forall in *. intros x Hx. apply mput_keys in Hx.
    destruct Hx as [->|Hx]; [lia|apply Hf; exact Hx].
Qed.

Lemma mfind_In {V} k (v : V) m : mfind k m = Some v -> In k (map fst m).
Proof.
  induction m as [|[k' v'] r IH]; simpl; [discriminate|]. destruct (N.eqb_spec k k') as [<-|]; auto.
Qed.

Lemma mfind_head {V} k0 (v0 : V) r k v : keys_sorted ((k0, v0) :: r) -> mfind k ((k0, v0) :: r) = Some v -> k0 <= k.
Proof.
  intros Hs Hf. apply mfind_In in Hf. simpl in Hf. destruct Hf as [->|Hf]; [lia|].
  unfold keys_sorted in Hs. simpl in Hs. inversion Hs as [|? ? _ Hall]; subst. rewrite Forall_forall in Hall. specialize (Hall _ Hf). lia.
Qed.

(* ---------- loops ---------- *)
Lemma in_iota x n : In x (iota n) <-> x < n.
Proof.
  unfold iota. rewrite in_map_iff. split.
  - intros (k & <- & Hk). apply in_seq in Hk. lia.
  - intro H. exists (N.to_nat x). split; [lia|]. apply in_seq. lia.
Qed.

Lemma wrapped_from_nowrap base count : base + count <= 2 ^ 32 ->
  wrapped_from base count = map (fun i => base + i) (iota count).
Proof.
  intro H. unfold wrapped_from. apply map_ext_in. intros i Hi. apply in_iota in Hi.
  unfold u32. apply N.mod_small. lia.
Qed.

Lemma in_wrapped base count x : base + count <= 2 ^ 32 ->
  In x (wrapped_from base count) <-> base <= x < base + count.
Proof.
  intro H. rewrite wrapped_from_nowrap by exact H. rewrite in_map_iff. split.
  - intros (i & <- & Hi). apply in_iota in Hi. lia.
  - intros Hx. exists (x - base). split; [lia|]. apply in_iota. lia.
Qed.

(* ---------- writing ---------- *)
Lemma mips_written (mips : list N) (st : lstate) : forall m q,
  mfind q (fold_left (fun ms mip => mput mip st ms) mips m)
  = if existsb (N.eqb q) mips then Some st else mfind q m.
Proof.
  induction mips as [|x mips IH]; intros m q; simpl; [reflexivity|].
  rewrite IH, mfind_mput. destruct (existsb (N.eqb q) mips); [rewrite orb_true_r; reflexivity|].
  rewrite orb_false_r. reflexivity.
Qed.

Lemma layers_written (layers mips : list N) (st : lstate) : forall m layer mip,
  tracked (fold_left (fun (acc : layer_states) (layer : N) =>
    let ls : mip_states := match mfind layer acc with Some m => m | None => [] end in
    mput layer (fold_left (fun ms mip => mput mip st ms) mips ls) acc) layers m) layer mip
  = if andb (existsb (N.eqb layer) layers) (existsb (N.eqb mip) mips) then Some st else tracked m layer mip.
Proof.
  induction layers as [|x layers IH]; intros m layer mip; simpl; [reflexivity|].
  rewrite IH. destruct (existsb (N.eqb layer) layers) eqn:E1; simpl.
  - rewrite orb_true_r. simpl. destruct (existsb (N.eqb mip) mips) eqn:E2; [reflexivity|].
    unfold tracked. rewrite mfind_mput. destruct (N.eqb_spec layer x) as [->|]; [|reflexivity].
    rewrite mips_written, E2. destruct (mfind x m); reflexivity.
  - rewrite orb_false_r. unfold tracked. rewrite mfind_mput. destruct (N.eqb_spec layer x) as [->|]; simpl; [|reflexivity].
    rewrite mips_written. destruct (existsb (N.eqb mip) mips); [reflexivity|]. destruct (mfind x m); reflexivity.
Qed.

Lemma existsb_eqb_In q l : existsb (N.eqb q) l = true <-> In q l.
Proof.
  rewrite existsb_exists. split.
  - intros (x & Hx & E). apply N.eqb_eq in E. subst. exact Hx.
  - intro H. exists q. split; [exact H|apply N.eqb_refl].
Qed.

(* no wrap, possibly empty *)
Definition nowrap (r : srange) : Prop := r_mip r + r_levels r <= 2 ^ 32 /\ r_layer r + r_layers r <= 2 ^ 32.

Lemma add_tracked_in m r st layer mip : nowrap r -> in_range r layer mip ->
  tracked (addSubresourceRangeLayout m r st) layer mip = Some st.
Proof.
  intros [H1 H2] [Hl Hm]. unfold addSubresourceRangeLayout. rewrite layers_written.
  rewrite (proj2 (existsb_eqb_In layer _)) by (apply in_wrapped; auto).
  rewrite (proj2 (existsb_eqb_In mip _)) by (apply in_wrapped; auto). reflexivity.
Qed.

Lemma add_tracked_out m r st layer mip : nowrap r -> ~ in_range r layer mip ->
  tracked (addSubresourceRangeLayout m r st) layer mip = tracked m layer mip.
Proof.
  intros [H1 H2] Hn. unfold addSubresourceRangeLayout. rewrite layers_written.
  destruct (andb _ _) eqn:E; [|reflexivity]. exfalso. apply andb_true_iff in E. destruct E as [E1 E2].
  apply existsb_eqb_In in E1. apply existsb_eqb_In in E2.
  apply Hn. split; [apply in_wrapped in E1|apply in_wrapped in E2]; auto.
Qed.

(* ---------- reading ---------- *)
Lemma fold_mips (layers : mip_states) mips : forall acc,
  fold_left (fun acc mip => match mfind mip layers with None => acc | Some s => collect acc s end) mips acc
  = fold_left collect (flat_map (fun mip => match mfind mip layers with Some s => [s] | None => [] end) mips) acc.
Proof.
  induction mips as [|x mips IH]; intro acc; simpl; [reflexivity|].
  rewrite IH. destruct (mfind x layers); reflexivity.
Qed.

Lemma fold_layers (m : layer_states) mips ls : forall acc,
  fold_left (fun acc layer => match mfind layer m with
      | None => acc
      | Some layers => fold_left (fun acc mip => match mfind mip layers with None => acc | Some s => collect acc s end) mips acc
      end) ls acc
  = fold_left collect (flat_map (fun layer => flat_map (fun mip => match tracked m layer mip with Some s => [s] | None => [] end) mips) ls) acc.
Proof.
  induction ls as [|x ls IH]; intro acc; simpl; [reflexivity|]. rewrite IH, fold_left_app. f_equal.
  unfold tracked. destruct (mfind x m) as [layers|].
  - apply fold_mips.
  - replace (flat_map (fun _ : N => []) mips) with (@nil lstate); [reflexivity|]. clear. induction mips as [|y mips IH]; simpl; auto.
Qed.

Lemma flat_map_map {A B C} (f : A -> B) (g : B -> list C) l : flat_map g (map f l) = flat_map (fun x => g (f x)) l.
Proof. induction l as [|x l IH]; simpl; [reflexivity|]. rewrite IH. reflexivity. Qed.
Lemma flat_map_flat_map {A B C} (f : A -> list B) (g : B -> list C) l :
  flat_map g (flat_map f l) = flat_map (fun x => flat_map g (f x)) l.
Proof. induction l as [|x l IH]; simpl; [reflexivity|]. rewrite flat_map_app, IH. reflexivity. Qed.
Lemma flat_map_ext_in {A B} (f g : A -> list B) l : (forall x, In x l -> f x = g x) -> flat_map f l = flat_map g l.
Proof. induction l as [|x l IH]; simpl; intro H; [reflexivity|]. rewrite (H x) by (left; reflexivity). rewrite IH; [reflexivity|]. intros y Hy. apply H. right; exact Hy. Qed.

Lemma get_collect m r : nowrap r ->
  getSubresourceRangeLayout m r =
  match fold_left collect (tracked_list m r) [] with [] => makeLayoutState L_UNDEFINED | (_, s) :: _ => s end.
Proof.
  intros [H1 H2]. unfold getSubresourceRangeLayout. rewrite fold_layers.
  rewrite !wrapped_from_nowrap by assumption. unfold tracked_list, subresources.
  rewrite flat_map_flat_map, flat_map_map.
  match goal with |- context [fold_left collect ?a []] => match goal with |- _ = match fold_left collect ?b [] with _ => _ end => assert (a = b) as -> end end; [|reflexivity].
  apply flat_map_ext_in. intros i _. rewrite !flat_map_map. reflexivity.
Qed.

(* summary of the entries of a given layout *)
Definition summary (k : N) (l : list lstate) : option lstate :=
  match filter (fun x => N.eqb (ls_layout x) k) l with
  | [] => None
  | s :: r => Some (mk_lstate k (fold_left (fun a x => N.lor a (ps_access (ls_state x))) r (ps_access (ls_state s))) (ps_stage (ls_state s)))
  end.

Lemma collect_find l : forall k, mfind k (fold_left collect l []) = summary k l.
Proof.
  induction l as [|x l IH] using rev_ind; intro k; [reflexivity|].
  rewrite fold_left_app. simpl. unfold summary. rewrite filter_app. simpl. unfold collect.
  rewrite IH. destruct (N.eqb_spec (ls_layout x) k) as [<-|Hne].
  - unfold summary. destruct (filter _ l) as [|s r]; simpl.
    + rewrite mfind_mput_same. destruct x as [lx [ax sx]]. reflexivity.
    + rewrite mfind_mput_same, fold_left_app. reflexivity.
  - rewrite app_nil_r. specialize (IH k). unfold summary in IH.
    destruct (summary (ls_layout x) l); rewrite mfind_mput_other by congruence; exact IH.
Qed.

Lemma collect_sorted l : forall m, keys_sorted m -> keys_sorted (fold_left collect l m).
Proof.
  induction l as [|x l IH]; intros m H; simpl; [exact H|]. apply IH. unfold collect.
  destruct (mfind (ls_layout x) m); apply mput_sorted; exact H.
Qed.

Lemma collect_nonempty l m : m <> [] -> fold_left collect l m <> [].
Proof.
  revert m. induction l as [|x l IH]; intros m H; simpl; [exact H|]. apply IH. unfold collect.
  assert (G : forall v, mput (ls_layout x) v m <> []).
  { intro v. destruct m as [|[k w] m]; simpl; [discriminate|]. destruct (N.eqb _ k); [discriminate|]. destruct (N.ltb _ k); discriminate. }
  destruct (mfind (ls_layout x) m); apply G.
Qed.

Lemma fold_lor l a : fold_left (fun a x => N.lor a (ps_access (ls_state x))) l a
  = N.lor a (fold_right (fun x b => N.lor (ps_access (ls_state x)) b) 0 l).
Proof.
  revert a. induction l as [|x l IH]; intro a; simpl; [rewrite N.lor_0_r; reflexivity|].
  rewrite IH, N.lor_assoc. reflexivity.
Qed.

Lemma get_is_summary m r : nowrap r -> is_summary (tracked_list m r) (getSubresourceRangeLayout m r).
Proof.
  intro H. rewrite (get_collect m r H). set (l := tracked_list m r). clearbody l. clear.
  destruct l as [|x l]; [reflexivity|]. unfold is_summary.
  assert (Hs : keys_sorted (fold_left collect (x :: l) [])) by (apply collect_sorted; constructor).
  assert (Hf := collect_find (x :: l)).
  destruct (fold_left collect (x :: l) []) as [|[k0 s0] rest] eqn:E.
  - exfalso. simpl in E. revert E. apply collect_nonempty. unfold collect. simpl. discriminate.
  - pose proof (Hf k0) as Hk0. simpl in Hk0. rewrite N.eqb_refl in Hk0.
    unfold summary in Hk0. destruct (filter (fun y => N.eqb (ls_layout y) k0) (x :: l)) as [|s1 rs] eqn:Ef; [discriminate|].
    injection Hk0 as ->. cbn [ls_layout ls_state ps_access ps_stage mk_lstate]. split; [|split; [|split]].
    + intros y Hy. specialize (Hf (ls_layout y)). unfold summary in Hf.
      destruct (filter (fun z => N.eqb (ls_layout z) (ls_layout y)) (x :: l)) as [|z zs] eqn:Ez.
      * exfalso. assert (In y (filter (fun z => N.eqb (ls_layout z) (ls_layout y)) (x :: l))).
        { apply filter_In. split; [exact Hy|apply N.eqb_refl]. }
        rewrite Ez in H. destruct H.
      * eapply mfind_head; eauto.
    + rewrite Ef. discriminate.
    + rewrite Ef. rewrite fold_lor. reflexivity.
    + intro d. rewrite Ef. reflexivity.
Qed.

Lemma in_subresources r layer mip : In (layer, mip) (subresources r) <-> in_range r layer mip.
Proof.
  unfold subresources, in_range. rewrite in_flat_map. split.
  - intros (i & Hi & H). apply in_map_iff in H. destruct H as (j & E & Hj). injection E as <- <-.
    apply in_iota in Hi. apply in_iota in Hj. lia.
  - intros [Hl Hm]. exists (layer - r_layer r). split; [apply in_iota; lia|]. apply in_map_iff.
    exists (mip - r_mip r). split; [f_equal; lia|apply in_iota; lia].
Qed.

Lemma tracked_list_ext m m' r : (forall layer mip, in_range r layer mip -> tracked m layer mip = tracked m' layer mip) ->
  tracked_list m r = tracked_list m' r.
Proof.
  intro H. unfold tracked_list. apply flat_map_ext_in. intros [a b] Hin. apply in_subresources in Hin. simpl. rewrite (H a b Hin). reflexivity.
Qed.

Lemma get_ext m m' r : nowrap r -> (forall layer mip, in_range r layer mip -> tracked m layer mip = tracked m' layer mip) ->
  getSubresourceRangeLayout m r = getSubresourceRangeLayout m' r.
Proof. intros Hn H. rewrite !get_collect by exact Hn. rewrite (tracked_list_ext m m' r H). reflexivity. Qed.

Lemma valid_nowrap r : valid_range r -> nowrap r.
Proof. intros (_ & _ & H1 & H2). split; assumption. Qed.

Lemma valid_in r : valid_range r -> in_range r (r_layer r) (r_mip r).
Proof. intros (H1 & H2 & _ & _). unfold in_range. lia. Qed.

Lemma fold_lor_same a l : (forall x, In x l -> ps_access (ls_state x) = a) ->
  fold_right (fun x b => N.lor (ps_access (ls_state x)) b) 0 l = match l with [] => 0 | _ => a end.
Proof.
  induction l as [|x l IH]; intro H; [reflexivity|]. cbn [fold_right]. rewrite IH by (intros y Hy; apply H; right; exact Hy).
  rewrite (H x) by (left; reflexivity). destruct l; [apply N.lor_0_r|apply N.lor_diag].
Qed.

Lemma lstate_eq s t : ls_layout s = ls_layout t -> ps_access (ls_state s) = ps_access (ls_state t) ->
  ps_stage (ls_state s) = ps_stage (ls_state t) -> s = t.
Proof. destruct s as [a [b c]], t as [a' [b' c']]. simpl. intros -> -> ->. reflexivity. Qed.

(* uniform range *)
Lemma get_uniform m r st : valid_range r ->
  (forall layer mip, in_range r layer mip -> tracked m layer mip = Some st) ->
  getSubresourceRangeLayout m r = st.
Proof.
  intros Hv H. pose proof (get_is_summary m r (valid_nowrap _ Hv)) as Hs.
  assert (Hall : forall x, In x (tracked_list m r) -> x = st).
  { intros x Hx. unfold tracked_list in Hx. apply in_flat_map in Hx. destruct Hx as ([a b] & Hin & Hx).
    apply in_subresources in Hin. simpl in Hx. rewrite (H a b Hin) in Hx. destruct Hx as [<-|[]]. reflexivity. }
  assert (Hne : In st (tracked_list m r)).
  { unfold tracked_list. apply in_flat_map. exists (r_layer r, r_mip r).
    split; [apply in_subresources; apply valid_in; exact Hv|]. simpl. rewrite (H _ _ (valid_in _ Hv)). left; reflexivity. }
  destruct (tracked_list m r) as [|x l] eqn:E; [destruct Hne|].
  destruct Hs as (_ & Hsame & Ha & Hst).
  set (g := getSubresourceRangeLayout m r) in *. clearbody g.
  destruct (filter (fun y => N.eqb (ls_layout y) (ls_layout g)) (x :: l)) as [|y ys] eqn:Ef; [congruence|].
  assert (Hy : forall z, In z (y :: ys) -> z = st /\ ls_layout z = ls_layout g).
  { intros z Hz. rewrite <- Ef in Hz. apply filter_In in Hz. destruct Hz as [Hz1 Hz2]. split; [apply Hall; exact Hz1|]. apply N.eqb_eq. exact Hz2. }
  destruct (Hy y (or_introl eq_refl)) as [-> Hl].
  apply lstate_eq; [congruence| |].
  - rewrite Ha, (fold_lor_same (ps_access (ls_state st))); [reflexivity|]. intros z Hz. destruct (Hy z Hz) as [-> _]. reflexivity.
  - rewrite (Hst st). reflexivity.
Qed.

Lemma sub_valid_get m r r' st : valid_range r -> valid_range r' -> sub_range r' r ->
  getSubresourceRangeLayout (addSubresourceRangeLayout m r st) r' = st.
Proof.
  intros Hv Hv' Hs. apply get_uniform; [exact Hv'|]. intros layer mip Hin.
  apply add_tracked_in; [apply valid_nowrap; exact Hv|apply Hs; exact Hin].
Qed.

Lemma disjoint_get m r r' st : nowrap r -> nowrap r' -> disjoint_ranges r' r ->
  getSubresourceRangeLayout (addSubresourceRangeLayout m r st) r' = getSubresourceRangeLayout m r'.
Proof.
  intros Hv Hv' Hd. apply get_ext; [exact Hv'|]. intros layer mip Hin.
  apply add_tracked_out; [exact Hv|apply Hd; exact Hin].
Qed.

(* ---------- the handler ---------- *)
Lemma set_mfind h im vt r s q : mfind q (setLayoutState h im vt r s) =
  if N.eqb q (i_id im) then Some (addSubresourceRangeLayout (match mfind (i_id im) h with Some m => m | None => [] end) (getVirtualRange im vt r) s)
  else mfind q h.
Proof. unfold setLayoutState. apply mfind_mput. Qed.

(* C09 *)
Lemma set_get h im vt vt' r r' s :
  valid_range (getVirtualRange im vt r) -> valid_range (getVirtualRange im vt' r') ->
  sub_range (getVirtualRange im vt' r') (getVirtualRange im vt r) ->
  getLayoutState (setLayoutState h im vt r s) im vt' r' = s.
Proof.
  intros Hv Hv' Hs. unfold getLayoutState. rewrite set_mfind, N.eqb_refl. apply sub_valid_get; assumption.
Qed.

Lemma virtual_not3d im vt r : vt <> VT_3D -> getVirtualRange im vt r = r.
Proof. intro H. unfold getVirtualRange. destruct (N.eqb_spec vt VT_3D); [contradiction|reflexivity]. Qed.

Lemma set_get_not3d h im vt vt' r r' s :
  vt <> VT_3D -> vt' <> VT_3D -> valid_range r -> valid_range r' -> sub_range r' r ->
  getLayoutState (setLayoutState h im vt r s) im vt' r' = s.
Proof.
  intros H1 H2 Hv Hv' Hs. apply set_get; rewrite ?virtual_not3d by assumption; assumption.
Qed.

(* C10 *)
Lemma set_frame_range h im vt vt' r r' s :
  vt <> VT_3D -> vt' <> VT_3D -> valid_range r -> valid_range r' -> disjoint_ranges r' r ->
  (exists m, mfind (i_id im) h = Some m) ->
  getLayoutState (setLayoutState h im vt r s) im vt' r' = getLayoutState h im vt' r'.
Proof.
  intros H1 H2 Hv Hv' Hd (m & Hm). unfold getLayoutState. rewrite set_mfind, N.eqb_refl, Hm.
  rewrite !virtual_not3d by assumption. apply disjoint_get; auto using valid_nowrap.
Qed.

Lemma set_frame_image h im im' vt vt' r r' s : i_id im' <> i_id im ->
  getLayoutState (setLayoutState h im vt r s) im' vt' r' = getLayoutState h im' vt' r'.
Proof.
  intro H. unfold getLayoutState. rewrite set_mfind. destruct (N.eqb_spec (i_id im') (i_id im)); [contradiction|reflexivity].
Qed.

(* layout part of the frame, also when the image was unknown before *)
Lemma set_frame_layout h im vt vt' r r' s :
  vt <> VT_3D -> vt' <> VT_3D -> valid_range r -> valid_range r' -> disjoint_ranges r' r ->
  ls_layout (getLayoutState (setLayoutState h im vt r s) im vt' r') = ls_layout (getLayoutState h im vt' r') /\
  ps_access (ls_state (getLayoutState (setLayoutState h im vt r s) im vt' r')) = ps_access (ls_state (getLayoutState h im vt' r')).
Proof.
  intros H1 H2 Hv Hv' Hd. destruct (mfind (i_id im) h) as [m|] eqn:E.
  - rewrite (set_frame_range h im vt vt' r r' s); eauto.
  - unfold getLayoutState. rewrite set_mfind, N.eqb_refl, E.
    rewrite !virtual_not3d by assumption. rewrite disjoint_get; auto using valid_nowrap.
    pose proof (get_is_summary [] r' (valid_nowrap _ Hv')) as Hs.
    replace (tracked_list [] r') with (@nil lstate) in Hs.
    + simpl in Hs. rewrite Hs. split; reflexivity.
    + unfold tracked_list. symmetry. induction (subresources r') as [|x l IH]; simpl; auto.
Qed.

(* C14: addStates *)
Lemma addStates_find h : forall data q,
  mfind q (addStates h data) = match mfind q h with Some m => Some m | None => mfind q data end.
Proof.
  intro data. unfold addStates. revert h. induction data as [|[k v] data IH]; intros h q; simpl.
  - destruct (mfind q h); reflexivity.
  - rewrite IH, mfind_minsert. destruct (mfind q h); [reflexivity|]. destruct (N.eqb q k); reflexivity.
Qed.

(* C13 *)
Lemma shiftr_le a b : N.shiftr a b <= a.
Proof. rewrite N.shiftr_div_pow2. apply N.div_le_upper_bound; [apply N.pow_nonzero; discriminate|]. pose proof (N.pow_nonzero 2 b). nia. Qed.

Lemma virtual_valid im vt r : valid_range r -> i_depth im < 2 ^ 32 -> 0 < N.shiftr (i_depth im) (r_mip r) ->
  valid_range (getVirtualRange im vt r).
Proof.
  intros (H1 & H2 & H3 & H4) Hd Hs. unfold getVirtualRange. destruct (andb _ _); [|repeat split; assumption].
  unfold valid_range. cbn [r_levels r_layers r_mip r_layer]. pose proof (shiftr_le (i_depth im) (r_mip r)).
  repeat split; try assumption. lia.
Qed.

Lemma set_get_3d h im r s : valid_range r -> i_depth im < 2 ^ 32 -> 0 < N.shiftr (i_depth im) (r_mip r) ->
  getLayoutState (setLayoutState h im VT_3D r s) im VT_3D r = s.
Proof.
  intros Hv Hd Hs. apply set_get; try (apply virtual_valid; assumption). intros l m H. exact H.
Qed.

Lemma set_get_slices h im vt r r' s :
  valid_range r -> valid_range r' -> i_depth im < 2 ^ 32 -> 0 < N.shiftr (i_depth im) (r_mip r) -> vt <> VT_3D ->
  (r_levels r = 1 \/ r_levels r = i_levels im) ->
  r_mip r <= r_mip r' -> r_mip r' + r_levels r' <= r_mip r + r_levels r ->
  r_layer r' + r_layers r' <= N.shiftr (i_depth im) (r_mip r) ->
  getLayoutState (setLayoutState h im VT_3D r s) im vt r' = s.
Proof.
  intros Hv Hv' Hd Hs Hvt Hl H1 H2 H3. apply set_get.
  - apply virtual_valid; assumption.
  - rewrite virtual_not3d by exact Hvt. exact Hv'.
  - rewrite virtual_not3d by exact Hvt. unfold getVirtualRange.
    assert (E : andb (N.eqb VT_3D VT_3D) (orb (N.eqb (r_levels r) 1) (N.eqb (r_levels r) (i_levels im))) = true).
    { rewrite N.eqb_refl. simpl. destruct Hl as [E|E]; rewrite E, N.eqb_refl; [reflexivity|apply orb_true_r]. }
    rewrite E. unfold sub_range, in_range. cbn [r_levels r_layers r_mip r_layer]. lia.
Qed.

(* C12: the aspect mask is ignored *)
Lemma aspect_ignored_set h im vt r s a :
  setLayoutState h im vt {| r_aspect := a; r_mip := r_mip r; r_levels := r_levels r; r_layer := r_layer r; r_layers := r_layers r |} s
  = setLayoutState h im vt r s.
Proof. unfold setLayoutState, getVirtualRange, addSubresourceRangeLayout. cbn [r_levels r_layers r_mip r_layer]. destruct (andb _ _); reflexivity. Qed.

Lemma aspect_ignored_get h im vt r a :
  getLayoutState h im vt {| r_aspect := a; r_mip := r_mip r; r_levels := r_levels r; r_layer := r_layer r; r_layers := r_layers r |}
  = getLayoutState h im vt r.
Proof. unfold getLayoutState, getVirtualRange, getSubresourceRangeLayout. cbn [r_levels r_layers r_mip r_layer]. destruct (mfind _ _); [|reflexivity]. destruct (andb _ _); reflexivity. Qed.

(* C11 at the level of the handler *)
Lemma handler_get_summary h im vt r : valid_range r -> vt <> VT_3D ->
  match mfind (i_id im) h with
  | None => getLayoutState h im vt r = mk_lstate L_UNDEFINED 0 S_BOTTOM
  | Some m => is_summary (tracked_list m r) (getLayoutState h im vt r)
  end.
Proof.
  intros Hv Hvt. unfold getLayoutState. destruct (mfind (i_id im) h); [|reflexivity].
  rewrite virtual_not3d by exact Hvt. apply get_is_summary. apply valid_nowrap. exact Hv.
Qed.

(* C14 *)
Lemma import_known h data im vt r : (exists m, mfind (i_id im) h = Some m) ->
  getLayoutState (addStates h data) im vt r = getLayoutState h im vt r.
Proof. intros (m & Hm). unfold getLayoutState. rewrite addStates_find, Hm. reflexivity. Qed.

Lemma import_unknown h data im vt r : mfind (i_id im) h = None ->
  getLayoutState (addStates h data) im vt r = getLayoutState data im vt r.
Proof. intro Hm. unfold getLayoutState. rewrite addStates_find, Hm. reflexivity. Qed.

(* a list of imports: the first handler that knows the image wins *)
Lemma import_all_find datas : forall h q,
  mfind q (fold_left addStates datas h) =
  fold_left (fun acc d => match acc with Some m => Some m | None => mfind q d end) datas (mfind q h).
Proof.
  induction datas as [|d datas IH]; intros h q; simpl; [reflexivity|]. rewrite IH, addStates_find. reflexivity.
Qed.
