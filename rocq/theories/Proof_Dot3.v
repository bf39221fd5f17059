(* The streams after the visit of a graph, and after the display of transitions (C75, C76). *)
From Verif Require Import Spec_Dot Proof_Dot Proof_Dot2.
From Coq Require Import Lia.
Local Open Scope N_scope.

Record base (nm : names) (ps : list N) (s : streams) (E : list (string * string * string)) : Prop := {
  ba_ok : st_ok s;
  ba_keys : forall k, In k (keys s) -> k = [] \/ holds nm ps k;
  ba_arrows : Permutation (all_arrows s) E;
  ba_entries : forall k d, In (k, d) s -> Forall plain (sd_lines d) }.
Definition nodes_ok (s : streams) : Prop := forall k d, In (k, d) s -> node_ok d.
Lemma base_first nm ps : base nm ps first_streams [].
Proof.
  constructor; [apply first_ok|intros k [<-|[]]; left; reflexivity|reflexivity|]. intros k d [H|[]]. injection H as <- <-. constructor.
Qed.
Lemma holds_suffix nm ps q k : k <> [] -> holds nm ps (q ++ k) -> holds nm ps k.
Proof. intros Hk (_ & p & inner & Hp & E). split; [exact Hk|]. exists p, (inner ++ q)%list. split; [exact Hp|]. rewrite E, <- app_assoc. reflexivity. Qed.
Lemma base_emplace nm ps s E h : h = [] \/ holds nm ps h -> base nm ps s E -> base nm ps (st_emplace h s) E.
Proof.
  intros Hh [A B C D]. destruct (emplace_shape h s A) as (ks & S1 & S2 & S3 & _). constructor.
  - exact S3.
  - intros k K. unfold keys in K. rewrite S1, map_app, map_map in K. cbn [fst] in K. rewrite map_id in K. apply in_app_or in K. destruct K as [K|K]; [apply B, K|].
    destruct (S2 k K) as [K1 [q K2]]. right. subst h. destruct Hh as [Hh|Hh]; [destruct q; [cbn in Hh; congruence|discriminate]|exact (holds_suffix nm ps q k K1 Hh)].
  - rewrite (emplace_arrows h s A). exact C.
  - intros k d K. destruct (in_emplace h s k d A K) as [K'|[-> _]]; [apply (D k d K')|]. constructor.
Qed.
Lemma base_update nm ps s E g f x P : base nm ps s E -> In g (keys s) -> step f x P -> base nm ps (st_update g f s) (E ++ x).
Proof.
  intros [A B C D] Hg S. constructor.
  - apply update_ok, A.
  - rewrite keys_update. exact B.
  - rewrite (update_arrows g f x P s A Hg S). apply Permutation_app_tail, C.
  - intros k d K. destruct (in_update g f s k d K) as (d0 & K0 & ->). pose proof (D k d0 K0) as D1. destruct (path_eqb k g); [|exact D1].
    destruct (S d0) as ((new & S1 & _ & S3) & _). rewrite S1. apply Forall_app. split; assumption.
Qed.
Lemma base_pass nm ps s E name h : h = [] \/ holds nm ps h -> base nm ps s E -> base nm ps (displayPassNode name h s) E.
Proof.
  intros Hh H. unfold displayPassNode. pose proof (base_emplace nm ps s E h Hh H) as H1.
  pose proof (base_update nm ps _ E h (displayNode name) [] _ H1 (emplace_in h s (ba_ok nm ps s E H)) (step_node name)) as H2. rewrite app_nil_r in H2. exact H2.
Qed.
Lemma nodes_update s g f x P : step f x P -> nodes_ok s -> nodes_ok (st_update g f s).
Proof. intros S H k d K. destruct (in_update g f s k d K) as (d0 & K0 & ->). destruct (path_eqb k g); [|apply (H k d0 K0)]. destruct (S d0) as (_ & S4 & _). apply S4, (H k d0 K0). Qed.
Lemma nodes_pass s name h : st_ok s -> nodes_ok s -> nodes_ok (displayPassNode name h s).
Proof.
  intros O H. unfold displayPassNode. apply (nodes_update _ _ _ _ _ (step_node name)). intros k d K. destruct (in_emplace h s k d O K) as [K'|[-> _]]; [apply (H k d K')|intro n; reflexivity].
Qed.
Lemma pass_keys name h s : st_ok s -> In h (keys (displayPassNode name h s)) /\ incl (keys s) (keys (displayPassNode name h s)).
Proof. intro H. unfold displayPassNode. rewrite keys_update. split; [apply emplace_in, H|apply emplace_keys, H]. Qed.
Lemma own_group nm ps p : In p ps -> nm_of nm p = [] \/ holds nm ps (nm_of nm p).
Proof. intro H. destruct (nm_of nm p) as [|x l] eqn:E; [left; reflexivity|right]. split; [discriminate|]. exists p, []. split; [exact H|exact E]. Qed.

(* The nodes of the passes. *)
Definition has_pass (nm : names) (s : streams) (p : N) : Prop := exists d, In (nm_of nm p, d) s /\ has_name (nm_pass nm p) (sd_nodes d) = true.
Definition only_passes (nm : names) (ps : list N) (L : N -> Prop) (s : streams) : Prop :=
  forall k d p, In (k, d) s -> In p ps -> has_name (nm_pass nm p) (sd_nodes d) = true -> k = nm_of nm p /\ L p.
Lemma has_pass_mono nm s h name p : st_ok s -> has_pass nm s p -> has_pass nm (displayPassNode name h s) p.
Proof.
  intros H (d & H1 & H2). unfold displayPassNode. pose proof (in_update' h (displayNode name) _ _ _ (in_emplace' h s _ _ H H1)) as K. eexists. split; [exact K|].
  destruct (path_eqb (nm_of nm p) h); [|exact H2]. destruct (step_node name d) as (_ & _ & M & _). apply M, H2.
Qed.
Lemma has_pass_new nm s p : st_ok s -> has_pass nm (displayPassNode (nm_pass nm p) (nm_of nm p) s) p.
Proof.
  intro H. pose proof (emplace_in (nm_of nm p) s H) as K. unfold keys in K. apply in_map_iff in K. destruct K as ([k d] & E & K). cbn [fst] in E. subst k.
  unfold displayPassNode. pose proof (in_update' (nm_of nm p) (displayNode (nm_pass nm p)) _ _ _ K) as K1. rewrite path_eqb_refl in K1. eexists. split; [exact K1|].
  unfold displayNode. destruct (has_name (nm_pass nm p) (sd_nodes d)) eqn:E; [exact E|]. cbn [sd_nodes]. rewrite has_name_app. cbn. rewrite String.eqb_refl. apply Bool.orb_true_r.
Qed.
Lemma has_pass_update nm s g f x P p : step f x P -> has_pass nm s p -> has_pass nm (st_update g f s) p.
Proof.
  intros S (d & H1 & H2). pose proof (in_update' g f s _ _ H1) as K. eexists. split; [exact K|]. destruct (path_eqb (nm_of nm p) g); [|exact H2]. destruct (S d) as (_ & _ & M & _). apply M, H2.
Qed.
Lemma only_pass nm ps (L : N -> Prop) s p : pass_names_ok nm ps -> st_ok s -> In p ps -> L p -> only_passes nm ps L s -> only_passes nm ps L (displayPassNode (nm_pass nm p) (nm_of nm p) s).
Proof.
  intros Hn H Hp Hl O k d q K Hq Hh. unfold displayPassNode in K. destruct (in_update _ _ _ _ _ K) as (d0 & K0 & ->).
  assert (Z : has_name (nm_pass nm q) (sd_nodes d0) = true -> k = nm_of nm q /\ L q).
  { intro Z. destruct (in_emplace _ _ _ _ H K0) as [K1|[-> _]]; [exact (O k d0 q K1 Hq Z)|discriminate Z]. }
  destruct (path_eqb k (nm_of nm p)) eqn:E; [|exact (Z Hh)].
  destruct (step_node (nm_pass nm p) d0) as (_ & _ & _ & M). destruct (M _ Hh) as [M1|M1]; [exact (Z M1)|].
  apply (proj1 Hn p q Hp Hq) in M1. subst q. apply path_eqb_eq in E. split; assumption.
Qed.
Lemma only_update nm ps (L : N -> Prop) s g f x P : step f x P -> (forall p, In p ps -> ~ P (nm_pass nm p)) -> only_passes nm ps L s -> only_passes nm ps L (st_update g f s).
Proof.
  intros S HP O k d q K Hq Hh. destruct (in_update _ _ _ _ _ K) as (d0 & K0 & ->). destruct (path_eqb k g); [|exact (O k d0 q K0 Hq Hh)].
  destruct (S d0) as (_ & _ & _ & M). destruct (M _ Hh) as [M1|M1]; [exact (O k d0 q K0 Hq M1)|destruct (HP q Hq M1)].
Qed.

(* One edge. *)
Definition write_edge (nm : names) (a b : N) (tr : attaches) (d : sdata) : sdata :=
  fold_left (fun d t => transition_lines nm (nm_pass nm a) (nm_pass nm b) (t_in t) (nm_buffer nm (t_data t)) d) (as_buffers tr)
    (fold_left (fun d t => transition_lines nm (nm_pass nm a) (nm_pass nm b) (t_in t) (nm_view nm (t_data t)) d) (as_views tr) d).
Definition is_box (nm : names) (n : string) : Prop := exists a, n = box nm a.
Lemma step_transition nm from to a label : step (transition_lines nm from to a label) [(from, box nm a, label); (box nm a, to, label)] (is_box nm).
Proof.
  unfold transition_lines. apply (step_comp (fun d => displayEdge from (box nm a) label (displayNode (box nm a) d)) (displayEdge (box nm a) to label) [(from, box nm a, label)] [(box nm a, to, label)]); [|apply step_edge].
  apply (step_comp (displayNode (box nm a)) (displayEdge from (box nm a) label) [] [(from, box nm a, label)]); [|apply step_edge].
  apply (step_weaken _ _ (eq (box nm a))); [intros n <-; exists a; reflexivity|apply step_node].
Qed.
Lemma step_write nm a b tr : step (write_edge nm a b tr) (flat_map (drawn nm (nm_view nm) a b) (as_views tr) ++ flat_map (drawn nm (nm_buffer nm) a b) (as_buffers tr)) (is_box nm).
Proof.
  unfold write_edge.
  apply (step_comp (fun d => fold_left (fun d t => transition_lines nm (nm_pass nm a) (nm_pass nm b) (t_in t) (nm_view nm (t_data t)) d) (as_views tr) d)
                   (fun d => fold_left (fun d t => transition_lines nm (nm_pass nm a) (nm_pass nm b) (t_in t) (nm_buffer nm (t_data t)) d) (as_buffers tr) d)).
  - apply (step_fold (fun t d => transition_lines nm (nm_pass nm a) (nm_pass nm b) (t_in t) (nm_view nm (t_data t)) d)). intro t. apply step_transition.
  - apply (step_fold (fun t d => transition_lines nm (nm_pass nm a) (nm_pass nm b) (t_in t) (nm_buffer nm (t_data t)) d)). intro t. apply step_transition.
Qed.
Lemma printEdge_eq nm g a b s tr : getInputAttaches g b (Some a) = Some tr ->
  printEdge nm g a b s = Some (st_update (edge_group (nm_of nm a) (nm_of nm b)) (write_edge nm a b tr)
    (displayPassNode (nm_pass nm b) (nm_of nm b) (displayPassNode (nm_pass nm a) (nm_of nm a) s))).
Proof. intro H. unfold printEdge. rewrite H. reflexivity. Qed.

(* The state of the streams after some prints. *)
Record drawing (nm : names) (ps : list N) (g : graph) (s : streams) (es : list (N * N)) : Prop := {
  dr_base : base nm ps s (flat_map (fun e => drawn_edge nm g (fst e) (snd e)) es);
  dr_nodes : nodes_ok s;
  dr_only : pass_names_ok nm ps -> only_passes nm ps (linked g) s;
  dr_has : forall e, In e es -> has_pass nm s (fst e) /\ has_pass nm s (snd e);
  dr_root : one_root nm ps -> forall d, In ([], d) s -> d = no_sdata }.
Lemma root_emplace h s d : st_ok s -> In ([], d) (st_emplace h s) -> In ([], d) s.
Proof. intros H K. destruct (in_emplace h s [] d H K) as [K1|(_ & K1 & _)]; [exact K1|congruence]. Qed.
Lemma print_drawing nm ps g s es a b s' : In a ps -> In b ps -> In b (getNext g (Some a)) -> drawing nm ps g s es -> printEdge nm g a b s = Some s' ->
  drawing nm ps g s' (es ++ [(a, b)]).
Proof.
  intros Ha Hb Hab [Db Dn Do Dh Dr] Hp. destruct (getInputAttaches g b (Some a)) as [tr|] eqn:E; [|unfold printEdge in Hp; rewrite E in Hp; discriminate].
  rewrite (printEdge_eq nm g a b s tr E) in Hp. injection Hp as <-.
  pose proof (ba_ok _ _ _ _ Db) as O0.
  pose proof (base_pass nm ps s _ (nm_pass nm a) (nm_of nm a) (own_group nm ps a Ha) Db) as B1. pose proof (ba_ok _ _ _ _ B1) as O1.
  pose proof (base_pass nm ps _ _ (nm_pass nm b) (nm_of nm b) (own_group nm ps b Hb) B1) as B2. pose proof (ba_ok _ _ _ _ B2) as O2.
  pose proof (step_write nm a b tr) as S.
  constructor.
  - rewrite flat_map_app. cbn [flat_map fst snd]. rewrite app_nil_r. unfold drawn_edge at 2. rewrite E.
    apply (base_update nm ps _ _ _ _ _ (is_box nm)); [exact B2| |exact S]. apply edge_group_key; [exact O2|].
    apply (proj2 (pass_keys (nm_pass nm b) (nm_of nm b) _ O1)). exact (proj1 (pass_keys _ _ s O0)).
  - apply (nodes_update _ _ _ _ _ S). apply nodes_pass; [exact O1|]. apply nodes_pass; [exact O0|exact Dn].
  - intro Hn. apply (only_update nm ps _ _ _ _ _ (is_box nm) S).
    + intros p Hq [x Hx]. exact (proj2 Hn p x Hq Hx).
    + apply only_pass; [exact Hn|exact O1|exact Hb|exists a; right; exact Hab|]. apply only_pass; [exact Hn|exact O0|exact Ha|exists b; left; exact Hab|exact (Do Hn)].
  - intros e He.
    assert (M : forall p, has_pass nm s p -> has_pass nm (st_update (edge_group (nm_of nm a) (nm_of nm b)) (write_edge nm a b tr) (displayPassNode (nm_pass nm b) (nm_of nm b) (displayPassNode (nm_pass nm a) (nm_of nm a) s))) p).
    { intros p Hp. apply (has_pass_update nm _ _ _ _ _ p S). apply has_pass_mono; [exact O1|]. apply has_pass_mono; [exact O0|exact Hp]. }
    apply in_app_or in He. destruct He as [He|[<-|[]]]; [destruct (Dh e He); split; apply M; assumption|]. cbn [fst snd]. split; apply (has_pass_update nm _ _ _ _ _ _ S).
    + apply has_pass_mono; [exact O1|]. apply has_pass_new, O0.
    + apply has_pass_new, O1.
  - intros R d K. destruct (R) as [dd Hd]. destruct (Hd a Ha) as [ia Ea]. destruct (Hd b Hb) as [ib Eb].
    destruct (in_update _ _ _ _ _ K) as (d0 & K0 & ->). destruct (edge_group_root dd ia ib) as [c Ec]. rewrite Ea, Eb, Ec.
    replace (path_eqb [] (c ++ [dd])) with false by (destruct c; reflexivity).
    unfold displayPassNode in K0. destruct (in_update _ _ _ _ _ K0) as (d1 & K1 & ->). rewrite Eb. replace (path_eqb [] (ib ++ [dd])) with false by (destruct ib; reflexivity).
    apply root_emplace in K1; [|exact O1]. destruct (in_update _ _ _ _ _ K1) as (d2 & K2 & ->). rewrite Ea. replace (path_eqb [] (ia ++ [dd])) with false by (destruct ia; reflexivity).
    apply root_emplace in K2; [|exact O0]. exact (Dr R d2 K2).
Qed.
Lemma drawing_first nm ps g : drawing nm ps g first_streams [].
Proof.
  constructor; [apply base_first| | | |].
  - intros k d [H|[]]. injection H as <- <-. intro n. reflexivity.
  - intros _ k d p [H|[]]. injection H as <- <-. intros _ H. discriminate H.
  - intros e [].
  - intros _ d [H|[]]. injection H as <-. reflexivity.
Qed.
Lemma printed_none nm g es : fold_left (print_opt nm g) es None = None.
Proof. induction es as [|e es IH]; [reflexivity|exact IH]. Qed.
Lemma printed_drawing nm ps g es : forall s done st, (forall e, In e es -> In (fst e) ps /\ In (snd e) ps /\ In (snd e) (getNext g (Some (fst e)))) ->
  drawing nm ps g s done -> printed nm g es s st -> drawing nm ps g st (done ++ es).
Proof.
  induction es as [|[a b] es IH]; intros s done st Hs D P.
  - injection P as <-. rewrite app_nil_r. exact D.
  - unfold printed in P. cbn [fold_left print_opt fst snd] in P. destruct (printEdge nm g a b s) as [s1|] eqn:E; [|rewrite printed_none in P; discriminate].
    destruct (Hs (a, b) (or_introl eq_refl)) as (Ha & Hb & Hab). pose proof (print_drawing nm ps g s done a b s1 Ha Hb Hab D E) as D1.
    specialize (IH s1 (done ++ [(a, b)])%list st (fun e He => Hs e (or_intror He)) D1 P). rewrite <- app_assoc in IH. exact IH.
Qed.
