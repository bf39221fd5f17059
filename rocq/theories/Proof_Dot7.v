(* The texts of a drawing (C75). *)
From Verif Require Import Spec_Dot Proof_Deps Proof_Graph2 Proof_Dot Proof_Dot2 Proof_Dot3 Proof_Dot4 Proof_Dot5 Proof_Dot6.
From Coq Require Import Lia.
Local Open Scope N_scope.

Lemma perm_flat_map {A B} (f : A -> list B) l l' : Permutation l l' -> Permutation (flat_map f l) (flat_map f l').
Proof.
  induction 1; cbn [flat_map]; try reflexivity.
  - apply Permutation_app_head, IHPermutation.
  - rewrite !app_assoc. apply Permutation_app_tail, Permutation_app_comm.
  - etransitivity; eassumption.
Qed.
Lemma arrows_perm l l' : Permutation l l' -> Permutation (arrows l) (arrows l').
Proof. apply perm_flat_map. Qed.
Lemma declared_perm n l l' : Permutation l l' -> declared n l = declared n l'.
Proof.
  unfold declared. induction 1 as [|x l l' _ IH|x y l|l1 l2 l3 _ IH1 _ IH2]; [reflexivity| | |congruence].
  - cbn [filter]. destruct x; try exact IH. destruct (String.eqb name n); cbn [List.length]; congruence.
  - cbn [filter]. destruct x, y; try reflexivity. destruct (String.eqb name n), (String.eqb name0 n); reflexivity.
Qed.
Lemma arrows_flat {A} (f : A -> list line) l : arrows (flat_map f l) = flat_map (fun x => arrows (f x)) l.
Proof. induction l as [|x l IH]; [reflexivity|]. cbn [flat_map]. rewrite arrows_app, IH. reflexivity. Qed.

Lemma names_inj nm ps s E : base nm ps s E -> group_names_ok nm ps -> forall g h, In g (keys s) -> In h (keys s) -> group_name nm g = group_name nm h -> g = h.
Proof.
  intros B [H1 H2] g h Hg Hh Eq. destruct (ba_keys nm ps s E B g Hg) as [->|Kg], (ba_keys nm ps s E B h Hh) as [->|Kh].
  - reflexivity.
  - destruct h as [|y h]; [reflexivity|]. exfalso. apply (H1 _ Kh). symmetry. exact Eq.
  - destruct g as [|x g]; [reflexivity|]. exfalso. apply (H1 _ Kg). exact Eq.
  - destruct g as [|x g]; [destruct Kg as [K _]; congruence|]. destruct h as [|y h]; [destruct Kh as [K _]; congruence|]. exact (H2 _ _ Kg Kh Eq).
Qed.
Lemma base_plain nm ps s E : base nm ps s E -> forall k d, In (k, d) s -> Forall plain (sd_lines d).
Proof. intros B k d H. exact (ba_entries nm ps s E B k d H). Qed.

(* The whole text, when the groups are not split. *)
Lemma whole_text nm ps cf s E global : base nm ps s E -> group_names_ok nm ps -> cf_split cf = false -> Forall plain global ->
  let text := dget EmptyString (st_write nm (S (max_depth s)) cf s [] global []) in
  one_digraph text /\ Permutation (filter plainb text) (flat_map (fun e => sd_lines (snd e)) s ++ global).
Proof.
  intros B Hn Sp Hg text. pose proof (ba_ok nm ps s E B) as O. pose proof (base_plain nm ps s E B) as Pl.
  destruct (write_whole nm cf s O (names_inj nm ps s E B Hn) Sp (S (max_depth s)) [] global [] (so_root s O) ltac:(constructor) (fun _ _ _ => eq_refl)) as (_ & T & _).
  change (group_name nm []) with EmptyString in T. unfold text. rewrite T. split; [apply content_digraph; assumption|].
  rewrite (content_lines nm cf s Pl (S (max_depth s)) [] global ltac:(lia)). rewrite (plain_all global Hg). apply Permutation_app_tail.
  rewrite (perm_flat_map (st_lines s) _ _ (whole_tree s O)). rewrite (all_lines s O). reflexivity.
Qed.

Lemma entry_unique s k d d' : NoDup (keys s) -> In (k, d) s -> In (k, d') s -> d = d'.
Proof.
  induction s as [|[k0 d0] s IH]; intros N H H'; [destruct H|]. cbn [keys map fst] in N. apply NoDup_cons_iff in N. destruct N as [N1 N2].
  destruct H as [H|H], H' as [H'|H'].
  - congruence.
  - injection H as -> ->. exfalso. apply N1. exact (in_map fst s (k, d') H').
  - injection H' as -> ->. exfalso. apply N1. exact (in_map fst s (k, d) H).
  - exact (IH N2 H H').
Qed.
Definition all_of (s : streams) : list line := flat_map (fun e => sd_lines (snd e)) s.
Lemma count_nodes n (k0 : gpath) s : NoDup (keys s) -> (forall k d, In (k, d) s -> node_ok d) -> (forall k d, In (k, d) s -> has_name n (sd_nodes d) = true -> k = k0) ->
  declared n (all_of s) = if existsb (fun e => has_name n (sd_nodes (snd e))) s then 1%nat else 0%nat.
Proof.
  unfold all_of. induction s as [|[k d] s IH]; intros N Hok Hk; [reflexivity|]. cbn [flat_map existsb snd]. cbn [keys map fst] in N. apply NoDup_cons_iff in N. destruct N as [N1 N2].
  rewrite declared_app, (Hok k d (or_introl eq_refl) n). rewrite (IH N2 (fun k' d' H => Hok k' d' (or_intror H)) (fun k' d' H => Hk k' d' (or_intror H))).
  destruct (has_name n (sd_nodes d)) eqn:E; [|reflexivity]. cbn [orb]. destruct (existsb (fun e => has_name n (sd_nodes (snd e))) s) eqn:E2; [|reflexivity].
  exfalso. apply existsb_exists in E2. destruct E2 as ([k' d'] & H & E'). cbn [snd] in E'. apply N1. rewrite (Hk k d (or_introl eq_refl) E), <- (Hk k' d' (or_intror H) E'). exact (in_map fst s (k', d') H).
Qed.
Lemma drawing_nodes nm ps g s es : drawing nm ps g s es -> pass_names_ok nm ps -> forall p, In p ps ->
  ((exists e, In e es /\ (fst e = p \/ snd e = p)) -> declared (nm_pass nm p) (all_of s) = 1%nat) /\ (~ linked g p -> declared (nm_pass nm p) (all_of s) = 0%nat).
Proof.
  intros [Db Dn Do Dh _] Hn p Hp. rewrite (count_nodes (nm_pass nm p) (nm_of nm p) s).
  - split.
    + intros (e & He & Hep). destruct (Dh e He) as [H1 H2]. assert (H : has_pass nm s p) by (destruct Hep; subst; assumption). destruct H as (d & K1 & K2).
      replace (existsb _ s) with true; [reflexivity|]. symmetry. apply existsb_exists. exists (nm_of nm p, d). split; [exact K1|exact K2].
    + intro Hl. destruct (existsb (fun e => has_name (nm_pass nm p) (sd_nodes (snd e))) s) eqn:E; [|reflexivity]. exfalso. apply existsb_exists in E. destruct E as ([k d] & K & E). exact (Hl (proj2 (Do Hn k d p K Hp E))).
  - exact (so_nodup s (ba_ok _ _ _ _ Db)).
  - intros k d K. exact (Dn k d K).
  - intros k d K E. exact (proj1 (Do Hn k d p K Hp E)).
Qed.
Lemma edges_list nm g l : flat_map (fun e => drawn_edge nm g (fst e) (snd e)) (flat_map (out_edges g) l) = flat_map (fun p => flat_map (drawn_edge nm g p) (getNext g (Some p))) l.
Proof.
  induction l as [|x l IH]; [reflexivity|]. cbn [flat_map]. rewrite flat_map_app, IH. f_equal. unfold out_edges. generalize (getNext g (Some x)) as m. induction m as [|y m IHm]; [reflexivity|]. cbn [map flat_map fst snd]. rewrite IHm. reflexivity.
Qed.
Lemma drawn_graph_ids nm w g : drawn_graph nm w g = flat_map (fun p => flat_map (drawn_edge nm g p) (getNext g (Some p))) (map d_id w).
Proof. unfold drawn_graph. induction w as [|p w IH]; [reflexivity|]. cbn [flat_map map]. rewrite IH. reflexivity. Qed.
(* What a text must have to be the drawing of a graph. *)
Lemma lines_drawing nm w st es text : compiled_order w -> ids_ok w -> well_declared w ->
  let g := compileGraph w in Permutation es (flat_map (out_edges g) (map d_id w)) -> drawing nm (map d_id w) g st es -> Permutation (filter plainb text) (all_of st) ->
  Permutation (arrows text) (drawn_graph nm w g) /\
  (pass_names_ok nm (map d_id w) -> forall p, In p w -> (linked g (d_id p) -> declared (nm_pass nm (d_id p)) text = 1%nat) /\ (~ linked g (d_id p) -> declared (nm_pass nm (d_id p)) text = 0%nat)).
Proof.
  intros Ho Hi Hd g Pe D Pt. split.
  - rewrite <- arrows_plain, (arrows_perm _ _ Pt). unfold all_of. rewrite arrows_flat. change (Permutation (all_arrows st) (drawn_graph nm w g)).
    rewrite (ba_arrows _ _ _ _ (dr_base _ _ _ _ _ D)), (perm_flat_map _ _ _ Pe), edges_list, drawn_graph_ids. reflexivity.
  - intros Hn p Hp. rewrite <- declared_plain, (declared_perm _ _ _ Pt). destruct (drawing_nodes nm (map d_id w) g st es D Hn (d_id p) (in_map d_id w p Hp)) as [A B]. split; [|exact B].
    intros [q L]. apply A. assert (K : forall a b, In b (getNext g (Some a)) -> In (a, b) es).
    { intros a b H. apply (Permutation_in _ (Permutation_sym Pe)). apply in_flat_map. exists a. split; [exact (proj1 (edge_ids w Ho Hi Hd a b H))|]. apply in_map, H. }
    destruct L as [L|L]; [exists (d_id p, q)|exists (q, d_id p)]; (split; [apply K, L|cbn; auto]).
Qed.
(* The texts of the groups, when they are split. *)
Lemma split_lines nm s l : (forall k d, In (k, d) s -> Forall plain (sd_lines d)) ->
  well_formed (List.concat (map snd (split_texts nm s l))) /\ filter plainb (List.concat (map snd (split_texts nm s l))) = flat_map (st_lines s) (filter not_root l).
Proof.
  intro Pl. assert (Sl : forall g, Forall plain (st_lines s g)).
  { intro g. unfold st_lines. destruct (find (fun e => path_eqb (fst e) g) s) as [[k d]|] eqn:E; [|constructor]. apply find_some in E. apply (Pl k d), E. }
  unfold split_texts. induction (filter not_root l) as [|x r [IH1 IH2]]; [split; [constructor|reflexivity]|]. cbn [map List.concat snd flat_map]. split.
  - apply wf_app; [|exact IH1]. apply wf_wrap; [exact I|apply wf_plain, Sl].
  - rewrite filter_app, IH2. f_equal. unfold split_text. cbn [filter plainb]. rewrite filter_app, (plain_all _ (Sl x)). cbn. apply app_nil_r.
Qed.
Lemma wf_perm_texts (a b : list (string * list line)) : Permutation a b -> Forall (fun e => well_formed (snd e)) a -> Forall (fun e => well_formed (snd e)) b.
Proof. intros P H. apply Forall_forall. intros e He. rewrite Forall_forall in H. apply H. exact (Permutation_in _ (Permutation_sym P) He). Qed.
Lemma wf_concat (a : list (string * list line)) : Forall (fun e => well_formed (snd e)) a -> well_formed (List.concat (map snd a)).
Proof. induction 1 as [|e a H _ IH]; [constructor|]. cbn [map List.concat]. apply wf_app; assumption. Qed.
Lemma concat_perm (a b : list (string * list line)) : Permutation a b -> Permutation (List.concat (map snd a)) (List.concat (map snd b)).
Proof.
  intro P. assert (G : forall l : list (string * list line), List.concat (map snd l) = flat_map snd l) by (induction l as [|x l IH]; [reflexivity|cbn [map List.concat flat_map]; rewrite IH; reflexivity]).
  rewrite !G. apply perm_flat_map, P.
Qed.
Lemma split_all nm ps cf s E global : base nm ps s E -> group_names_ok nm ps -> cf_split cf = true -> (forall d, In ([], d) s -> d = no_sdata) ->
  let text := List.concat (map snd (filter (fun e => negb (String.eqb (fst e) EmptyString)) (st_write nm (S (max_depth s)) cf s [] global []))) in
  well_formed text /\ Permutation (filter plainb text) (all_of s).
Proof.
  intros B Hn Sp Hr text. pose proof (ba_ok nm ps s E B) as O. pose proof (base_plain nm ps s E B) as Pl.
  pose proof (write_split nm cf s O (names_inj nm ps s E B Hn) Sp (S (max_depth s)) [] global [] (so_root s O) (fun _ _ _ H => H)) as P. rewrite app_nil_r in P.
  set (m := st_write nm (S (max_depth s)) cf s [] global []) in *.
  assert (F : filter (fun e => negb (String.eqb (fst e) EmptyString)) m = m).
  { assert (K : forall e, In e m -> fst e <> EmptyString).
    { intros e He. apply (Permutation_in _ P) in He. unfold split_texts in He. apply in_map_iff in He. destruct He as (k & <- & Hk). apply filter_In in Hk. destruct Hk as [Hk Hk2]. cbn [fst].
      destruct (tree_in s O _ [] k (so_root s O) Hk) as [Kk _]. destruct (ba_keys nm ps s E B k Kk) as [->|Kh]; [discriminate|]. destruct k as [|x k]; [discriminate|]. exact (proj1 Hn _ Kh). }
    clear - K. induction m as [|e m IH]; [reflexivity|]. cbn [filter]. pose proof (K e (or_introl eq_refl)) as Ke. apply String.eqb_neq in Ke. rewrite Ke. cbn [negb]. f_equal. apply IH. intros x Hx. apply K. right. exact Hx. }
  unfold text. rewrite F. clear text F. split.
  - apply wf_concat. apply (wf_perm_texts _ _ (Permutation_sym P)). apply Forall_forall. intros e He. unfold split_texts in He. apply in_map_iff in He. destruct He as (k & <- & _). cbn [snd].
    apply wf_wrap; [exact I|]. apply wf_plain. unfold st_lines. destruct (find (fun e => path_eqb (fst e) k) s) as [[k' d]|] eqn:Ek; [|constructor]. apply find_some in Ek. apply (Pl k' d), Ek.
  - assert (Q : Permutation (filter plainb (List.concat (map snd m))) (filter plainb (List.concat (map snd (split_texts nm s (tree s (S (max_depth s)) [])))))).
    { pose proof (concat_perm _ _ P) as Q. clear - Q. induction Q as [|x l l' _ IH|x y l|l1 l2 l3 _ IH1 _ IH2]; cbn [filter]; try reflexivity.
      - destruct (plainb x); [constructor|]; exact IH.
      - destruct (plainb x), (plainb y); try reflexivity. apply perm_swap.
      - etransitivity; eassumption. }
    rewrite Q, (proj2 (split_lines nm s _ Pl)). clear Q P m.
    assert (T : Permutation (filter not_root (tree s (S (max_depth s)) [])) (filter not_root (keys s))).
    { pose proof (whole_tree s O) as Q. clear - Q. induction Q as [|x l l' _ IH|x y l|l1 l2 l3 _ IH1 _ IH2]; cbn [filter]; try reflexivity.
      - destruct (not_root x); [constructor|]; exact IH.
      - destruct (not_root x), (not_root y); try reflexivity. apply perm_swap.
      - etransitivity; eassumption. }
    rewrite (perm_flat_map _ _ _ T). unfold all_of. rewrite <- (all_lines s O).
    assert (R : st_lines s [] = []).
    { unfold st_lines. destruct (find (fun e => path_eqb (fst e) []) s) as [[k d]|] eqn:Ek; [|reflexivity]. apply find_some in Ek. destruct Ek as [K1 K2]. apply path_eqb_eq in K2. cbn [fst] in K2. subst k. rewrite (Hr d K1). reflexivity. }
    clear - R. induction (keys s) as [|k ks IH]; [reflexivity|]. cbn [filter flat_map]. destruct k as [|x k]; cbn [not_root]; [rewrite R; exact IH|]. cbn [flat_map]. apply Permutation_app_head, IH.
Qed.
