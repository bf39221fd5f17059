From Verif Require Import Spec_Run Proof_Layout Proof_Record Proof_Run2.
From Coq Require Import Sorted Lia PeanoNat.
Local Open Scope N_scope.

(* ================= layouts exposed by a pass ================= *)
Definition set_one (h : handler) (vs : view * lstate) : handler :=
  setLayoutState h (v_image (fst vs)) (v_type (fst vs)) (v_range (fst vs)) (snd vs).

Lemma fold_left_flat_map {A B C} (f : C -> B -> C) (g : A -> list B) l : forall c,
  fold_left f (flat_map g l) c = fold_left (fun c a => fold_left f (g a) c) l c.
Proof. induction l as [|a l IH]; intro c; simpl; [reflexivity|]. rewrite fold_left_app. apply IH. Qed.
Lemma fold_left_map {A B C} (f : C -> B -> C) (g : A -> B) l : forall c,
  fold_left f (map g l) c = fold_left (fun c a => f c (g a)) l c.
Proof. induction l as [|a l IH]; intro c; simpl; auto. Qed.
Lemma fold_left_ext {A C} (f g : C -> A -> C) l : (forall c a, f c a = g c a) -> forall c, fold_left f l c = fold_left g l c.
Proof. intro H. induction l as [|a l IH]; intro c; simpl; [reflexivity|]. rewrite H. apply IH. Qed.

Lemma pass_layouts_declared sep p : pass_layouts sep p = fold_left set_one (declared sep p) [].
Proof.
  unfold pass_layouts, declared. rewrite fold_left_flat_map. apply fold_left_ext. intros h a.
  rewrite fold_left_flat_map. apply fold_left_ext. intros h' v. rewrite fold_left_map. reflexivity.
Qed.

Definition htracked (h : handler) (k layer mip : N) : option lstate :=
  match mfind k h with Some m => tracked m layer mip | None => None end.

Lemma set_one_tracked h vs k layer mip :
  valid_range (getVirtualRange (v_image (fst vs)) (v_type (fst vs)) (v_range (fst vs))) ->
  htracked (set_one h vs) k layer mip = if covers (fst vs) k layer mip then Some (snd vs) else htracked h k layer mip.
Proof.
  intro Hv. destruct vs as [v s]. unfold htracked, set_one, covers. simpl in *. rewrite set_mfind.
  destruct (N.eqb_spec k (i_id (v_image v))) as [->|Hk].
  - rewrite N.eqb_refl. simpl. destruct (in_rangeb _ _ _) eqn:E.
    + apply in_rangeb_spec in E. apply add_tracked_in; [apply valid_nowrap; exact Hv|exact E].
    + rewrite add_tracked_out; [|apply valid_nowrap; exact Hv|intro K; apply in_rangeb_spec in K; congruence].
      destruct (mfind (i_id (v_image v)) h); reflexivity.
  - assert (E : N.eqb (i_id (v_image v)) k = false) by (apply N.eqb_neq; congruence). rewrite E. reflexivity.
Qed.

Lemma pass_layouts_needs sep p k layer mip : valid_views sep p ->
  htracked (pass_layouts sep p) k layer mip = needs sep p k layer mip.
Proof.
  intro Hv. rewrite pass_layouts_declared. unfold needs, valid_views in *.
  assert (G : forall l h acc, (forall v s, In (v, s) l -> valid_range (getVirtualRange (v_image v) (v_type v) (v_range v))) ->
     htracked h k layer mip = acc ->
     htracked (fold_left set_one l h) k layer mip =
     fold_left (fun acc vs => if covers (fst vs) k layer mip then Some (snd vs) else acc) l acc).
  { induction l as [|[v s] l IH]; intros h acc Hl Ha; simpl; [exact Ha|].
    apply IH; [intros; eapply Hl; right; eassumption|].
    rewrite set_one_tracked by (simpl; eapply Hl; left; reflexivity). simpl. rewrite Ha. reflexivity. }
  apply G; [exact Hv|reflexivity].
Qed.

(* ================= well formed maps ================= *)
Definition wf_layers (m : layer_states) : Prop :=
  keys_sorted m /\ forall l ms, In (l, ms) m -> keys_sorted ms /\ ms <> [].
Definition wf_handler (h : handler) : Prop := keys_sorted h /\ forall k m, In (k, m) h -> wf_layers m.

Lemma in_mput {V} k (v : V) m k' v' : In (k', v') (mput k v m) -> (k' = k /\ v' = v) \/ In (k', v') m.
Proof.
  induction m as [|[a b] r IH]; simpl.
  - intros [[= <- <-]|[]]; auto.
  - destruct (N.eqb_spec k a) as [<-|]; simpl.
    + intros [[= <- <-]|H]; auto.
    + destruct (N.ltb k a); simpl.
      * intros [[= <- <-]|H]; auto.
      * intros [H|H]; [auto|]. destruct (IH H) as [K|K]; auto.
Qed.
Lemma mfind_in' {V} k (v : V) m : mfind k m = Some v -> In (k, v) m.
Proof.
  induction m as [|[a b] r IH]; simpl; [discriminate|]. destruct (N.eqb_spec k a) as [<-|]; [intros [= <-]; auto|auto].
Qed.
Lemma in_mfind {V} k (v : V) m : keys_sorted m -> In (k, v) m -> mfind k m = Some v.
Proof.
  unfold keys_sorted. induction m as [|[a b] r IH]; simpl; intros Hs H; [contradiction|].
  inversion Hs as [|? ? Hs' Hf]; subst. destruct H as [H|H].
  - injection H as -> ->. rewrite N.eqb_refl. reflexivity.
  - destruct (N.eqb_spec k a) as [->|].
    + exfalso. rewrite Forall_forall in Hf. assert (In a (map fst r)) by (apply in_map_iff; exists (a, v); auto). specialize (Hf _ H0). lia.
    + apply IH; auto.
Qed.

Lemma mput_nonempty {V} k (v : V) m : mput k v m <> [].
Proof. destruct m as [|[a b] r]; simpl; [discriminate|]. destruct (N.eqb k a); [discriminate|]. destruct (N.ltb k a); discriminate. Qed.

Lemma mips_wf (mips : list N) st : forall m, keys_sorted m -> keys_sorted (fold_left (fun ms mip => mput mip st ms) mips m : mip_states).
Proof. induction mips as [|x l IH]; intros m H; simpl; [exact H|]. apply IH. apply mput_sorted. exact H. Qed.
Lemma mips_nonempty (mips : list N) st : forall m : mip_states, m <> [] \/ mips <> [] ->
  (fold_left (fun ms mip => mput mip st ms) mips m : mip_states) <> [].
Proof.
  induction mips as [|x l IH]; intros m H; simpl; [destruct H; congruence|]. apply IH. left. apply mput_nonempty.
Qed.
Lemma add_wf m r st : 0 < r_levels r -> wf_layers m -> wf_layers (addSubresourceRangeLayout m r st).
Proof.
  intros Hl. unfold addSubresourceRangeLayout.
  assert (Hne : wrapped_from (r_mip r) (r_levels r) <> []).
  { unfold wrapped_from, iota. destruct (N.to_nat (r_levels r)) eqn:E; [lia|]. discriminate. }
  generalize dependent (wrapped_from (r_mip r) (r_levels r)). intros mips Hne.
  generalize (wrapped_from (r_layer r) (r_layers r)). intro ls. revert m.
  induction ls as [|x ls IH]; intros m [H1 H2]; [split; assumption|]. cbn [fold_left]. apply IH. split.
  - apply mput_sorted. exact H1.
  - intros l ms H. apply in_mput in H. destruct H as [[-> ->]|H]; [|apply (H2 l); exact H].
    split; [|apply mips_nonempty; right; exact Hne]. apply mips_wf.
    match goal with |- keys_sorted (match ?X with Some _ => _ | None => _ end) => destruct X as [ms'|] eqn:E end; [|constructor]. apply mfind_in' in E. apply (H2 x ms'). exact E.
Qed.
Lemma set_wf h im vt r s : 0 < r_levels (getVirtualRange im vt r) -> wf_handler h -> wf_handler (setLayoutState h im vt r s).
Proof.
  intros Hl [H1 H2]. unfold setLayoutState. split; [apply mput_sorted; exact H1|].
  intros k m H. apply in_mput in H. destruct H as [[-> ->]|H]; [|apply (H2 k); exact H].
  apply add_wf; [exact Hl|]. destruct (mfind (i_id im) h) as [m'|] eqn:E.
  - apply mfind_in' in E. apply (H2 _ _ E).
  - split; [constructor|]. intros ? ? [].
Qed.
Lemma pass_layouts_wf sep p : valid_views sep p -> wf_handler (pass_layouts sep p).
Proof.
  intro Hv. rewrite pass_layouts_declared. unfold valid_views in Hv.
  assert (G : forall l h, (forall v s, In (v, s) l -> valid_range (getVirtualRange (v_image v) (v_type v) (v_range v))) ->
     wf_handler h -> wf_handler (fold_left set_one l h)).
  { induction l as [|[v s] l IH]; intros h Hl Hh; simpl; [exact Hh|]. apply IH; [intros; eapply Hl; right; eassumption|].
    apply set_wf; [|exact Hh]. simpl. eapply (Hl v s); left; reflexivity. }
  apply G; [exact Hv|]. split; [constructor|]. intros ? ? [].
Qed.

(* a layer is a key iff one of its subresources is tracked *)
Lemma layer_key m layer : wf_layers m -> ((exists ms, mfind layer m = Some ms) <-> exists mip s, tracked m layer mip = Some s).
Proof.
  intros [H1 H2]. unfold tracked. split.
  - intros [ms E]. rewrite E. apply mfind_in' in E. destruct (H2 _ _ E) as [_ Hne].
    destruct ms as [|[mip s] r]; [congruence|]. exists mip, s. simpl. rewrite N.eqb_refl. reflexivity.
  - intros (mip & s & E). destruct (mfind layer m); [eexists; reflexivity|discriminate].
Qed.

(* ================= mergeRanges ================= *)
Lemma merge_levels_find (nxt : mip_states) : forall (cur acc : mip_states) (q : N), keys_sorted cur ->
  (forall x, In x (map fst cur) -> mfind x acc = None) ->
  mfind q (fold_left (fun acc e => match mfind (fst e) nxt with Some s => minsert (fst e) s acc | None => acc end) cur acc) =
  match mfind q acc with Some s => Some s | None => match mfind q cur with Some _ => mfind q nxt | None => None end end.
Proof.
  unfold keys_sorted. induction cur as [|[x s0] cur IH]; intros acc q Hs Ha; simpl; [destruct (mfind q acc); reflexivity|].
  simpl in Hs. inversion Hs as [|? ? Hs' Hf]; subst. rewrite Forall_forall in Hf.
  assert (Hx : mfind x acc = None) by (apply Ha; left; reflexivity).
  destruct (mfind x nxt) as [s|] eqn:En.
  - rewrite IH; [|exact Hs'|].
    + unfold minsert. rewrite Hx, mfind_mput. destruct (N.eqb_spec q x) as [->|Hq].
      * rewrite Hx, En. reflexivity.
      * reflexivity.
    + intros y Hy. unfold minsert. rewrite Hx, mfind_mput. specialize (Hf _ Hy).
      destruct (N.eqb_spec y x); [lia|]. apply Ha. right. exact Hy.
  - rewrite IH; [|exact Hs'|intros; apply Ha; right; assumption].
    destruct (N.eqb_spec q x) as [->|Hq]; [|reflexivity]. rewrite Hx, En.
    destruct (mfind x cur); reflexivity.
Qed.

Lemma merge_tracked next k cur layer mip : wf_layers cur ->
  tracked (mergeRanges next k cur) layer mip =
  match tracked cur layer mip with Some _ => htracked next k layer mip | None => None end.
Proof.
  intros [H1 H2]. unfold mergeRanges, htracked. destruct (mfind k next) as [nxt|].
  2:{ unfold tracked. simpl. destruct (mfind layer cur) as [ms|]; [destruct (mfind mip ms)|]; reflexivity. }
  assert (G : forall (l acc : layer_states), StronglySorted N.lt (map fst l) -> (forall x ms, In (x, ms) l -> keys_sorted ms) ->
     tracked (fold_left (fun acc e => match mfind (fst e) nxt with
        | Some nl => mput (fst e) (merge_levels (snd e) nl) acc | None => acc end) l acc) layer mip =
     match mfind layer l with
     | Some ms => match mfind layer nxt with
                  | Some nl => match mfind mip ms with Some _ => mfind mip nl | None => None end
                  | None => tracked acc layer mip end
     | None => tracked acc layer mip
     end).
  { clear. induction l as [|[x ms] l IH]; intros acc Hs Hm; [reflexivity|].
    cbn [fold_left fst snd mfind]. simpl in Hs. inversion Hs as [|? ? Hs' Hf]; subst. rewrite Forall_forall in Hf.
    rewrite IH; [|exact Hs'|intros; eapply Hm; right; eassumption].
    destruct (N.eqb_spec layer x) as [->|Hx].
    - assert (E : mfind x l = None).
      { destruct (mfind x l) eqn:E; [|reflexivity]. exfalso. apply mfind_In in E. specialize (Hf _ E). lia. }
      rewrite E. destruct (mfind x nxt) as [nl|]; [|reflexivity].
      unfold tracked. rewrite mfind_mput_same. unfold merge_levels.
      rewrite merge_levels_find; [reflexivity|apply (Hm x ms); left; reflexivity|reflexivity].
    - destruct (mfind x nxt) as [nl|]; [|reflexivity]. unfold tracked. rewrite mfind_mput_other by exact Hx. reflexivity. }
  rewrite G; [|exact H1|intros x ms Hx; apply (H2 x ms Hx)].
  unfold tracked. destruct (mfind layer cur) as [ms|]; [|reflexivity].
  destruct (mfind layer nxt) as [nl|]; destruct (mfind mip ms); reflexivity.
Qed.

Lemma merge_empty next k cur :
  mergeRanges next k cur = [] <->
  ~ exists layer ms nxt nl, In (layer, ms) cur /\ mfind k next = Some nxt /\ mfind layer nxt = Some nl.
Proof.
  unfold mergeRanges. destruct (mfind k next) as [nxt|].
  2:{ split; [intros _ (l & ms & n & nl & _ & H & _); discriminate|reflexivity]. }
  assert (N : forall (l : layer_states) (acc : layer_states), acc <> [] -> fold_left (fun acc e => match mfind (fst e) nxt with
        | Some nl => mput (fst e) (merge_levels (snd e) nl) acc | None => acc end) l acc <> []).
  { induction l as [|e l IH]; intros acc H; simpl; [exact H|]. apply IH. destruct (mfind _ _); [apply mput_nonempty|exact H]. }
  induction cur as [|[x ms] cur IH]; simpl.
  - split; [intros _ (l & ms & n & nl & [] & _)|reflexivity].
  - destruct (mfind x nxt) as [nl|] eqn:E.
    + split; [intro H; exfalso; revert H; apply N; discriminate|].
      intro H. exfalso. apply H. exists x, ms, nxt, nl. auto.
    + rewrite IH. split; intros H (l & ms' & n & nl & A & B & C); apply H.
      * exists l, ms', n, nl. destruct A as [[= <- <-]|A]; [|auto]. injection B as <-. congruence.
      * exists l, ms', n, nl. auto.
Qed.

(* in terms of needs *)
Lemma merge_shares sep p q k cur : valid_views sep p -> valid_views sep q -> mfind k (pass_layouts sep p) = Some cur ->
  (mergeRanges (pass_layouts sep q) k cur <> [] <-> share_layer sep p q k).
Proof.
  intros Vp Vq Ek. destruct (pass_layouts_wf sep p Vp) as [_ Wp]. destruct (pass_layouts_wf sep q Vq) as [_ Wq].
  assert (Wc : wf_layers cur) by (eapply Wp; apply mfind_in'; exact Ek).
  unfold share_layer, uses_layer. split.
  - intro H. destruct (mergeRanges (pass_layouts sep q) k cur) eqn:Em; [congruence|]. 
    assert (X : ~ ~ exists layer ms nxt nl, In (layer, ms) cur /\ mfind k (pass_layouts sep q) = Some nxt /\ mfind layer nxt = Some nl).
    { intro K. apply merge_empty in K. congruence. }
    destruct (mfind k (pass_layouts sep q)) as [nxt|] eqn:En; [|exfalso; apply X; intros (l1 & ms & n & nl & _ & B & _); discriminate].
    assert (Y : existsb (fun e => match mfind (fst e) nxt with Some _ => true | None => false end) cur = true).
    { destruct (existsb _ cur) eqn:Ex; [reflexivity|]. exfalso. apply X. intros (l0 & ms & n & nl & A & B & C). injection B as <-.
      assert (existsb (fun e => match mfind (fst e) nxt with Some _ => true | None => false end) cur = true); [|congruence].
      apply existsb_exists. exists (l0, ms). simpl. rewrite C. auto. }
    apply existsb_exists in Y. destruct Y as ([layer ms] & A & C). simpl in C. destruct (mfind layer nxt) as [nl|] eqn:C'; [|discriminate].
    exists layer. split.
    + destruct (proj1 (layer_key cur layer Wc)) as (mip & s & T).
      { exists ms. apply in_mfind; [apply Wc|exact A]. }
      exists mip, s. rewrite <- pass_layouts_needs by exact Vp. unfold htracked. rewrite Ek. exact T.
    + assert (Wn : wf_layers nxt) by (eapply Wq; apply mfind_in'; exact En).
      destruct (proj1 (layer_key nxt layer Wn)) as (mip & s & T); [exists nl; exact C'|].
      exists mip, s. rewrite <- pass_layouts_needs by exact Vq. unfold htracked. rewrite En. exact T.
  - intros (layer & (m1 & s1 & U1) & (m2 & s2 & U2)) Hm. apply (proj1 (merge_empty _ _ _)) in Hm. apply Hm.
    rewrite <- pass_layouts_needs in U1 by exact Vp. rewrite <- pass_layouts_needs in U2 by exact Vq.
    unfold htracked in U1, U2. rewrite Ek in U1. destruct (mfind k (pass_layouts sep q)) as [nxt|] eqn:En; [|discriminate].
    unfold tracked in U1, U2. destruct (mfind layer cur) as [ms|] eqn:E1; [|discriminate]. destruct (mfind layer nxt) as [nl|] eqn:E2; [|discriminate].
    exists layer, ms, nxt, nl. split; [apply mfind_in'; exact E1|]. auto.
Qed.

(* ================= gather ================= *)
Lemma merase_find {V} k q (m : nmap V) : mfind q (merase k m) = if N.eqb q k then None else mfind q m.
Proof.
  induction m as [|[a b] r IH]; simpl; [destruct (N.eqb q k); reflexivity|].
  destruct (N.eqb_spec a k) as [->|Ha]; simpl.
  - rewrite IH. destruct (N.eqb_spec q k); reflexivity.
  - destruct (N.eqb_spec q a) as [->|Hq]; [|exact IH]. destruct (N.eqb_spec a k); [congruence|reflexivity].
Qed.
Lemma find_shared_some next cur k m : find_shared next cur = Some (k, m) ->
  exists states, In (k, states) cur /\ m = mergeRanges next k states /\ m <> [].
Proof.
  induction cur as [|[k' st] cur IH]; simpl; [discriminate|].
  destruct (mergeRanges next k' st) as [|x r] eqn:E.
  - intro H. destruct (IH H) as (s & A & B & C). exists s. auto.
  - intros [= <- <-]. exists st. rewrite E. split; [auto|]. split; [reflexivity|discriminate].
Qed.
Lemma find_shared_first next cur k states : keys_sorted cur -> In (k, states) cur -> mergeRanges next k states <> [] ->
  (forall k' st, In (k', st) cur -> k' < k -> mergeRanges next k' st = []) ->
  find_shared next cur = Some (k, mergeRanges next k states).
Proof.
  unfold keys_sorted. induction cur as [|[k0 st0] cur IH]; intros Hs Hin Hne Hb; [contradiction|]. simpl in Hs |- *.
  inversion Hs as [|? ? Hs' Hf]; subst. rewrite Forall_forall in Hf. destruct Hin as [H|H].
  - injection H as -> ->. destruct (mergeRanges next k states); [congruence|reflexivity].
  - rewrite (Hb k0 st0); [|left; reflexivity|apply Hf; apply in_map_iff; exists (k, states); auto].
    apply IH; auto. intros k' st A B. apply Hb; [right; exact A|exact B].
Qed.
Lemma find_shared_not next cur k states : keys_sorted cur -> mfind k cur = Some states -> mergeRanges next k states = [] ->
  forall m, find_shared next cur <> Some (k, m).
Proof.
  intros Hs Hk He m H. apply find_shared_some in H. destruct H as (s & A & B & C).
  apply (in_mfind _ _ _ Hs) in A. assert (s = states) by congruence. subst s. congruence.
Qed.
Lemma merase_sorted {V} k (m : nmap V) : keys_sorted m -> keys_sorted (merase k m).
Proof.
  unfold keys_sorted. induction m as [|[a b] r IH]; simpl; intro H; [constructor|]. inversion H as [|? ? Hs Hf]; subst.
  destruct (N.eqb a k); simpl; [apply IH; exact Hs|]. constructor; [apply IH; exact Hs|].
  rewrite Forall_forall in *. intros x Hx. apply Hf. apply in_map_iff in Hx. destruct Hx as (y & <- & Hy).
  apply in_map. unfold merase in Hy. apply filter_In in Hy. apply Hy.
Qed.
Lemma in_merase {V} k (m : nmap V) x : In x (merase k m) -> In x m.
Proof. unfold merase. intro H. apply filter_In in H. apply H. Qed.

Lemma gather_kept e nexts : forall cur res k m, mfind k res = Some m -> mfind k (gather e cur nexts res) = Some m.
Proof.
  induction nexts as [|q nexts IH]; intros cur res k m H; destruct cur as [|c0 cur]; try exact H.
  cbn [gather]. destruct (e_enabled e (rp_id q)); [|apply IH; exact H].
  destruct (find_shared _ _) as [[k' m']|]; [|apply IH; exact H]. apply IH. rewrite mfind_minsert.
  destruct (mfind k res) eqn:E; congruence.
Qed.
Lemma gather_not_current e nexts : forall cur res k, mfind k cur = None -> keys_sorted cur ->
  mfind k (gather e cur nexts res) = mfind k res.
Proof.
  induction nexts as [|q nexts IH]; intros cur res k H Hs; destruct cur as [|c0 cur]; try reflexivity.
  cbn [gather]. destruct (e_enabled e (rp_id q)); [|apply IH; assumption].
  destruct (find_shared _ _) as [[k' m']|] eqn:Ef; [|apply IH; assumption].
  rewrite IH; [|rewrite merase_find; destruct (N.eqb k k'); auto|apply merase_sorted; exact Hs].
  rewrite mfind_minsert. destruct (N.eqb_spec k k') as [->|]; [|destruct (mfind k res); reflexivity].
  exfalso. apply find_shared_some in Ef. destruct Ef as (s & A & _). apply in_mfind in A; [congruence|exact Hs].
Qed.
Lemma gather_none e nexts : forall cur res k states, keys_sorted cur -> mfind k cur = Some states ->
  (forall q, In q nexts -> e_enabled e (rp_id q) = true -> mergeRanges (pass_layouts (e_separate e) q) k states = []) ->
  mfind k (gather e cur nexts res) = mfind k res.
Proof.
  induction nexts as [|q nexts IH]; intros cur res k states Hs Hk Hn; destruct cur as [|c0 cur]; try reflexivity.
  cbn [gather]. assert (Hn' : forall q0, In q0 nexts -> e_enabled e (rp_id q0) = true -> mergeRanges (pass_layouts (e_separate e) q0) k states = [])
    by (intros; apply Hn; [right; assumption|assumption]).
  destruct (e_enabled e (rp_id q)) eqn:Een; [|apply (IH _ _ _ states); assumption].
  destruct (find_shared _ _) as [[k' m']|] eqn:Ef; [|apply (IH _ _ _ states); assumption].
  assert (k <> k').
  { intros <-. revert Ef. apply (find_shared_not _ _ _ states); [exact Hs|exact Hk|]. apply Hn; [left; reflexivity|exact Een]. }
  rewrite (IH _ _ k states); [|apply merase_sorted; exact Hs| |exact Hn'].
  - rewrite mfind_minsert. destruct (N.eqb_spec k k'); [congruence|]. destruct (mfind k res); reflexivity.
  - rewrite merase_find. destruct (N.eqb_spec k k'); [congruence|exact Hk].
Qed.
Lemma gather_first e before q after : forall cur res k states, keys_sorted cur -> mfind k cur = Some states -> mfind k res = None ->
  (forall b, In b before -> e_enabled e (rp_id b) = true -> mergeRanges (pass_layouts (e_separate e) b) k states = []) ->
  e_enabled e (rp_id q) = true -> mergeRanges (pass_layouts (e_separate e) q) k states <> [] ->
  (forall k' st, In (k', st) cur -> k' < k -> mergeRanges (pass_layouts (e_separate e) q) k' st = []) ->
  mfind k (gather e cur (before ++ q :: after) res) = Some (mergeRanges (pass_layouts (e_separate e) q) k states).
Proof.
  induction before as [|b before IH]; intros cur res k states Hs Hk Hr Hb Hq Hne Hlow.
  - destruct cur as [|c0 cur]; [discriminate|]. cbn [gather app]. rewrite Hq.
    rewrite (find_shared_first _ _ k states); [|exact Hs|apply mfind_in'; exact Hk|exact Hne|exact Hlow].
    apply gather_kept. rewrite mfind_minsert, Hr, N.eqb_refl. reflexivity.
  - destruct cur as [|c0 cur]; [discriminate|]. cbn [gather app].
    assert (Hb' : forall x, In x before -> e_enabled e (rp_id x) = true -> mergeRanges (pass_layouts (e_separate e) x) k states = [])
      by (intros; apply Hb; [right; assumption|assumption]).
    destruct (e_enabled e (rp_id b)) eqn:Eb; [|apply IH; assumption].
    destruct (find_shared _ _) as [[k' m']|] eqn:Ef; [|apply IH; assumption].
    assert (k <> k').
    { intros <-. revert Ef. apply (find_shared_not _ _ _ states); [exact Hs|exact Hk|]. apply Hb; [left; reflexivity|exact Eb]. }
    apply IH; try assumption.
    + apply merase_sorted. exact Hs.
    + rewrite merase_find. destruct (N.eqb_spec k k'); [congruence|exact Hk].
    + rewrite mfind_minsert, Hr. destruct (N.eqb_spec k k'); [congruence|reflexivity].
    + intros x st A B. apply in_merase in A. apply Hlow; assumption.
Qed.

(* soundness: what is gathered comes from a later enabled pass *)
Lemma gather_sound e nexts : forall cur res k m, keys_sorted cur -> mfind k (gather e cur nexts res) = Some m ->
  mfind k res = Some m \/
  exists q states, In q nexts /\ e_enabled e (rp_id q) = true /\ mfind k cur = Some states /\ m = mergeRanges (pass_layouts (e_separate e) q) k states.
Proof.
  induction nexts as [|q nexts IH]; intros cur res k m Hs H; destruct cur as [|c0 cur]; try (left; exact H).
  cbn [gather] in H. destruct (e_enabled e (rp_id q)) eqn:Een.
  - destruct (find_shared _ _) as [[k' m']|] eqn:Ef.
    + apply IH in H; [|apply merase_sorted; exact Hs]. destruct H as [H|(q' & st & A & B & C & D)].
      * rewrite mfind_minsert in H. destruct (mfind k res) eqn:Er; [left; congruence|].
        destruct (N.eqb_spec k k') as [<-|]; [|congruence]. injection H as <-.
        apply find_shared_some in Ef. destruct Ef as (s & A & B & _). right. exists q, s.
        split; [left; reflexivity|]. split; [exact Een|]. split; [apply in_mfind; assumption|exact B].
      * right. exists q', st. split; [right; exact A|]. split; [exact B|]. split; [|exact D].
        rewrite merase_find in C. destruct (N.eqb k k'); [discriminate|exact C].
    + apply IH in H; [|exact Hs]. destruct H as [H|(q' & st & A & B)]; [left; exact H|right; exists q', st; split; [right; exact A|exact B]].
  - apply IH in H; [|exact Hs]. destruct H as [H|(q' & st & A & B)]; [left; exact H|right; exists q', st; split; [right; exact A|exact B]].
Qed.

(* ================= getNextLayoutState ================= *)
Definition vrange (v : view) : srange := getVirtualRange (v_image v) (v_type v) (v_range v).

Lemma covers_range v layer mip : covers v (i_id (v_image v)) layer mip = true <-> in_range (vrange v) layer mip.
Proof. unfold covers. rewrite N.eqb_refl. simpl. apply in_rangeb_spec. Qed.

Lemma declared_needs sep p v s layer mip : In (v, s) (declared sep p) -> in_range (vrange v) layer mip ->
  exists s', needs sep p (i_id (v_image v)) layer mip = Some s'.
Proof.
  intros Hin Hr. unfold needs. apply covers_range in Hr.
  assert (G : forall l acc, In (v, s) l \/ (exists x, acc = Some x) ->
    exists x, fold_left (fun acc vs => if covers (fst vs) (i_id (v_image v)) layer mip then Some (snd vs) else acc) l acc = Some x).
  { induction l as [|vs l IH]; intros acc H; simpl.
    - destruct H as [[]|H]; exact H.
    - apply IH. destruct H as [[->|H]|[x ->]].
      + right. simpl. rewrite Hr. eexists; reflexivity.
      + left. exact H.
      + right. destruct (covers (fst vs) (i_id (v_image v)) layer mip); eexists; reflexivity. }
  apply G. left. exact Hin.
Qed.

Lemma summary_layout m r L : nowrap r ->
  (exists layer mip s, in_range r layer mip /\ tracked m layer mip = Some s) ->
  (forall layer mip s, in_range r layer mip -> tracked m layer mip = Some s -> ls_layout s = L) ->
  ls_layout (getSubresourceRangeLayout m r) = L.
Proof.
  intros Hw (layer & mip & s & Hr & Ht) Hall. pose proof (get_is_summary m r Hw) as Hs.
  assert (Hin : forall x, In x (tracked_list m r) -> ls_layout x = L).
  { intros x Hx. unfold tracked_list in Hx. apply in_flat_map in Hx. destruct Hx as ([l1 m1] & A & B). apply in_subresources in A. simpl in B.
    destruct (tracked m l1 m1) as [y|] eqn:E; [|contradiction]. destruct B as [<-|[]]. eapply Hall; eassumption. }
  assert (Hne : tracked_list m r <> []).
  { assert (X : In s (tracked_list m r)).
    { unfold tracked_list. apply in_flat_map. exists (layer, mip). split; [apply in_subresources; exact Hr|]. simpl. rewrite Ht. left. reflexivity. }
    intro K. rewrite K in X. destruct X. }
  unfold is_summary in Hs. destruct (tracked_list m r) as [|x0 l0] eqn:El; [congruence|].
  destruct Hs as (_ & Hsame & _). destruct (filter _ _) as [|y l] eqn:Ef; [congruence|].
  assert (Hy : In y (filter (fun x => N.eqb (ls_layout x) (ls_layout (getSubresourceRangeLayout m r))) (x0 :: l0))) by (rewrite Ef; left; reflexivity).
  apply filter_In in Hy. destruct Hy as [Hy1 Hy2]. apply N.eqb_eq in Hy2. rewrite <- Hy2. apply Hin. exact Hy1.
Qed.

Lemma pass_has_image sep p v s : valid_views sep p -> In (v, s) (declared sep p) ->
  exists cur, mfind (i_id (v_image v)) (pass_layouts sep p) = Some cur.
Proof.
  intros Vp Hin. destruct (declared_needs sep p v s (r_layer (vrange v)) (r_mip (vrange v)) Hin) as [s' Hs].
  - apply valid_in. apply (Vp v s Hin).
  - rewrite <- pass_layouts_needs in Hs by exact Vp. unfold htracked in Hs.
    destruct (mfind (i_id (v_image v)) (pass_layouts sep p)); [eexists; reflexivity|discriminate].
Qed.

Lemma next_consumer e g c0 p v s0 before q after L :
  let sep := e_separate e in
  valid_views sep p -> valid_views sep q -> (forall b, In b before -> valid_views sep b) ->
  In (v, s0) (declared sep p) ->
  (forall b, In b before -> e_enabled e (rp_id b) = true -> ~ share_layer sep p b (i_id (v_image v))) ->
  e_enabled e (rp_id q) = true ->
  (forall k, k < i_id (v_image v) -> ~ share_layer sep p q k) ->
  (exists layer mip s, covers v (i_id (v_image v)) layer mip = true /\ needs sep q (i_id (v_image v)) layer mip = Some s) ->
  (forall layer mip s, covers v (i_id (v_image v)) layer mip = true -> needs sep q (i_id (v_image v)) layer mip = Some s -> ls_layout s = L) ->
  L <> L_UNDEFINED ->
  ls_layout (getNextLayoutState e g (prepare e g p (before ++ q :: after) c0) p v) = L.
Proof.
  intros sep Vp Vq Vb Hin Hbefore Hq Hlow Hex Hall HL.
  set (k := i_id (v_image v)) in *.
  destruct (pass_has_image sep p v s0 Vp Hin) as [cur Hcur]. fold k in Hcur.
  pose proof (pass_layouts_wf sep p Vp) as [Wk Wp].
  assert (Wc : wf_layers cur) by (eapply Wp; apply mfind_in'; exact Hcur).
  assert (Hshare : share_layer sep p q k).
  { destruct Hex as (layer & mip & s & Hc & Hn). destruct (declared_needs sep p v s0 layer mip Hin) as [s' Hs']; [apply covers_range; exact Hc|].
    exists layer. split; [exists mip, s'; exact Hs'|exists mip, s; exact Hn]. }
  assert (Hm : mfind k (gather e (pass_layouts sep p) (before ++ q :: after) []) = Some (mergeRanges (pass_layouts sep q) k cur)).
  { apply gather_first; auto.
    - intros b Hb Heb. destruct (mergeRanges (pass_layouts (e_separate e) b) k cur) eqn:Em; [reflexivity|].
      exfalso. apply (Hbefore b Hb Heb). apply (merge_shares sep p b k cur); auto. fold sep in Em. rewrite Em. discriminate.
    - apply (merge_shares sep p q k cur); auto.
    - intros k' st Hk' Hlt. destruct (mergeRanges (pass_layouts (e_separate e) q) k' st) eqn:Em; [reflexivity|].
      exfalso. apply (Hlow k' Hlt). apply (merge_shares sep p q k' st); auto; [apply in_mfind; auto|]. fold sep in Em. rewrite Em. discriminate. }
  assert (Hr0 : ls_layout (getLayoutState (rc_next (prepare e g p (before ++ q :: after) c0)) (v_image v) (v_type v) (v_range v)) = L).
  { unfold prepare. destruct (before ++ q :: after) as [|x y] eqn:El; [destruct before; discriminate|]. rewrite <- El in *. clear x y El.
    cbn [setNextPipelineState rc_next]. unfold getLayoutState. fold k. fold sep. rewrite Hm. fold (vrange v).
    apply summary_layout.
    - apply valid_nowrap. apply (Vp v s0 Hin).
    - destruct Hex as (layer & mip & s & Hc & Hn). apply covers_range in Hc. exists layer, mip, s. split; [exact Hc|].
      rewrite merge_tracked by exact Wc. destruct (declared_needs sep p v s0 layer mip Hin Hc) as [s' Hs']. fold k in Hs'.
      rewrite <- pass_layouts_needs in Hs' by exact Vp. unfold htracked in Hs'. rewrite Hcur in Hs'. rewrite Hs'.
      rewrite pass_layouts_needs by exact Vq. exact Hn.
    - intros layer mip s Hr Ht. rewrite merge_tracked in Ht by exact Wc. destruct (tracked cur layer mip); [|discriminate].
      rewrite pass_layouts_needs in Ht by exact Vq. apply (Hall layer mip s); [apply covers_range; exact Hr|exact Ht]. }
  unfold getNextLayoutState. rewrite Hr0. destruct (N.eqb_spec L L_UNDEFINED); [congruence|]. exact Hr0.
Qed.

Lemma own_layout sep p v s0 L : valid_views sep p -> In (v, s0) (declared sep p) ->
  (forall layer mip s, covers v (i_id (v_image v)) layer mip = true -> needs sep p (i_id (v_image v)) layer mip = Some s -> ls_layout s = L) ->
  ls_layout (getLayoutState (pass_layouts sep p) (v_image v) (v_type v) (v_range v)) = L.
Proof.
  intros Vp Hin Hall. destruct (pass_has_image sep p v s0 Vp Hin) as [cur Hcur]. unfold getLayoutState. rewrite Hcur. fold (vrange v).
  assert (T : forall layer mip, tracked cur layer mip = needs sep p (i_id (v_image v)) layer mip).
  { intros. rewrite <- pass_layouts_needs by exact Vp. unfold htracked. rewrite Hcur. reflexivity. }
  apply summary_layout.
  - apply valid_nowrap. apply (Vp v s0 Hin).
  - destruct (declared_needs sep p v s0 (r_layer (vrange v)) (r_mip (vrange v)) Hin) as [s' Hs]; [apply valid_in; apply (Vp v s0 Hin)|].
    exists (r_layer (vrange v)), (r_mip (vrange v)), s'. rewrite T. split; [apply valid_in; apply (Vp v s0 Hin)|exact Hs].
  - intros layer mip s Hr Ht. rewrite T in Ht. apply (Hall layer mip s); [apply covers_range; exact Hr|exact Ht].
Qed.

Lemma no_consumer e g c0 p v s0 rest L :
  let sep := e_separate e in
  let out := ls_layout (getLayoutState (g_outputs g) (v_image v) (v_type v) (v_range v)) in
  valid_views sep p -> (forall b, In b rest -> valid_views sep b) ->
  In (v, s0) (declared sep p) ->
  (forall b, In b rest -> e_enabled e (rp_id b) = true -> ~ share_layer sep p b (i_id (v_image v))) ->
  (forall layer mip s, covers v (i_id (v_image v)) layer mip = true -> needs sep p (i_id (v_image v)) layer mip = Some s -> ls_layout s = L) ->
  ls_layout (getNextLayoutState e g (prepare e g p rest c0) p v) = if N.eqb out L_UNDEFINED then L else out.
Proof.
  intros sep out Vp Vb Hin Hno Hall. unfold getNextLayoutState.
  assert (Hr0 : ls_layout (getLayoutState (rc_next (prepare e g p rest c0)) (v_image v) (v_type v) (v_range v)) = L_UNDEFINED \/
                rest = []).
  { destruct rest as [|x y]; [right; reflexivity|]. left. unfold prepare. cbn [setNextPipelineState rc_next]. unfold getLayoutState.
    destruct (pass_has_image sep p v s0 Vp Hin) as [cur Hcur]. destruct (pass_layouts_wf sep p Vp) as [Wk Wp]. fold sep.
    rewrite (gather_none e (x :: y) _ _ _ cur); [reflexivity|exact Wk|exact Hcur|].
    intros b Hb Heb. destruct (mergeRanges (pass_layouts (e_separate e) b) (i_id (v_image v)) cur) eqn:Em; [reflexivity|].
    exfalso. apply (Hno b Hb Heb). apply (merge_shares sep p b (i_id (v_image v)) cur); auto. fold sep in Em. rewrite Em. discriminate. }
  pose proof (own_layout sep p v s0 L Vp Hin Hall) as Hown.
  destruct Hr0 as [Hr0| ->].
  - rewrite Hr0. cbn [N.eqb L_UNDEFINED negb]. fold out. destruct (N.eqb_spec out L_UNDEFINED) as [E|E]; simpl; [exact Hown|reflexivity].
  - cbn [prepare setNextPipelineState rc_next]. fold out. destruct (N.eqb_spec out L_UNDEFINED) as [E|E]; simpl; [exact Hown|reflexivity].
Qed.

(* whatever the graph, the answer is asked for by a later enabled pass, by the graph outputs or by the pass *)
Lemma next_layout_sound e g c0 p v s0 rest r :
  let sep := e_separate e in
  valid_views sep p -> (forall b, In b rest -> valid_views sep b) -> In (v, s0) (declared sep p) ->
  getNextLayoutState e g (prepare e g p rest c0) p v = r ->
  (exists q layer mip s, In q rest /\ e_enabled e (rp_id q) = true /\ covers v (i_id (v_image v)) layer mip = true /\
     needs sep q (i_id (v_image v)) layer mip = Some s /\ ls_layout s = ls_layout r) \/
  r = getLayoutState (g_outputs g) (v_image v) (v_type v) (v_range v) \/
  r = getLayoutState (pass_layouts sep p) (v_image v) (v_type v) (v_range v).
Proof.
  intros sep Vp Vb Hin. unfold getNextLayoutState.
  destruct (negb (N.eqb (ls_layout (getLayoutState (rc_next (prepare e g p rest c0)) (v_image v) (v_type v) (v_range v))) L_UNDEFINED)) eqn:E0.
  all: intro Hr.
  2:{ clear E0. revert Hr. destruct (negb (N.eqb (ls_layout (getLayoutState (g_outputs g) (v_image v) (v_type v) (v_range v))) L_UNDEFINED));
      intros <-; right; [left|right]; reflexivity. }
  apply negb_true_iff, N.eqb_neq in E0. subst r.
  destruct rest as [|x y]; [right; left; reflexivity|]. left. unfold prepare in *. cbn [setNextPipelineState rc_next] in *.
  destruct (pass_layouts_wf sep p Vp) as [Wk Wp]. fold sep in E0 |- *. unfold getLayoutState in *.
  destruct (mfind (i_id (v_image v)) (gather e (pass_layouts sep p) (x :: y) [])) as [m|] eqn:Em; [|exfalso; apply E0; reflexivity].
  apply gather_sound in Em; [|exact Wk]. destruct Em as [Em|(q & cur & Hq & Heq & Hcur & Hm)]; [discriminate|].
  fold (vrange v) in *. assert (Hw : nowrap (vrange v)) by (apply valid_nowrap; apply (Vp v s0 Hin)).
  pose proof (get_is_summary m (vrange v) Hw) as Hs. unfold is_summary in Hs.
  destruct (tracked_list m (vrange v)) as [|x0 l0] eqn:El.
  { exfalso. apply E0. rewrite Hs. reflexivity. }
  destruct Hs as (_ & Hsame & _). destruct (filter _ _) as [|z l] eqn:Ef; [congruence|].
  assert (Hz : In z (filter (fun x => N.eqb (ls_layout x) (ls_layout (getSubresourceRangeLayout m (vrange v)))) (x0 :: l0))) by (rewrite Ef; left; reflexivity).
  apply filter_In in Hz. destruct Hz as [Hz1 Hz2]. apply N.eqb_eq in Hz2. rewrite <- El in Hz1.
  unfold tracked_list in Hz1. apply in_flat_map in Hz1. destruct Hz1 as ([l1 m1] & A & B). apply in_subresources in A. simpl in B.
  destruct (tracked m l1 m1) as [w|] eqn:Et; [|contradiction]. destruct B as [<-|[]].
  assert (Wc : wf_layers cur) by (eapply Wp; apply mfind_in'; exact Hcur).
  rewrite Hm, merge_tracked in Et by exact Wc. destruct (tracked cur l1 m1); [|discriminate].
  rewrite pass_layouts_needs in Et by (apply Vb; exact Hq).
  exists q, l1, m1, w. split; [exact Hq|]. split; [exact Heq|]. split; [apply covers_range; exact A|]. split; [exact Et|exact Hz2].
Qed.
