(* The graph of compile, for the export (C75). *)
From Verif Require Import Spec_Dot Proof_Deps Proof_Graph2 Proof_Dot Proof_Dot2 Proof_Dot3 Proof_Dot4 Proof_Dot5.
From Coq Require Import Lia.
Local Open Scope N_scope.

(* The successors of the root have no other previous node. *)
Definition backed (g : graph) : Prop := forall e, In e (gr_next g) -> hasPrev g (snd e) = true.
Lemma hasPrev_in g n : hasPrev g n = true <-> exists p a, In (n, (p, a)) (gr_inputs g).
Proof.
  unfold hasPrev. rewrite existsb_exists. split.
  - intros ([m [p a]] & H & E). apply N.eqb_eq in E. cbn [fst] in E. subst. eauto.
  - intros (p & a & H). exists (n, (p, a)). split; [exact H|apply N.eqb_refl].
Qed.
Lemma attach_prev g from to new n : hasPrev (attachNode g from to new) n = true <-> hasPrev g n = true \/ n = to.
Proof.
  rewrite !hasPrev_in. cbn [gr_inputs attachNode]. split.
  - intros (p & a & H). apply add_entry_in in H. destruct H as [H|(b & Hb & E)]; [left; eauto|right; congruence].
  - intros [(p & a & H)| ->]; [|destruct (add_entry_has to from new (gr_inputs g)) as [a Ha]; eauto]. destruct (add_entry_other to from new (gr_inputs g) n p (ex_intro _ a H)) as [b Hb]. eauto.
Qed.
Lemma attach_backed g from to new : backed g -> backed (attachNode g from to new).
Proof.
  intros B e H. apply attach_prev. apply attachNode_next in H. destruct H as [H|H]; [left; apply B, H|right; subst; reflexivity].
Qed.
Definition no_root (g : graph) : Prop := forall e, In e (gr_next g) -> fst e <> None.
Lemma kind_keeps {D} (k : traits D) mk w l : forall g c, backed g -> no_root g -> backed (fst (buildGraph_kind k mk w l (g, c))) /\ no_root (fst (buildGraph_kind k mk w l (g, c))).
Proof.
  unfold buildGraph_kind. induction l as [|t l IH]; intros g c B R; [split; assumption|]. cbn [fold_left].
  destruct (at_pass (t_in t)) as [i|]; [|apply IH; assumption]. destruct (at_pass (t_out t)) as [o|]; [|apply IH; assumption].
  destruct (k_dependsOn k w i o (t_data t) c) as [[|] c']; [|apply IH; assumption]. apply IH; [apply attach_backed, B|].
  intros e H. apply attachNode_next in H. destruct H as [H|H]; [apply R, H|subst; discriminate].
Qed.
Definition roots_alone (ids : list N) (g : graph) : Prop := forall n, In (None, n) (gr_next g) -> In n ids /\ forall m, ~ In (Some m, n) (gr_next g).
Lemma roots_ok nodes ids : forall g, incl (map d_id nodes) ids -> backed g -> roots_alone ids g ->
  roots_alone ids (fold_left (fun g p => if hasPrev g (d_id p) then g else attachNode g None (d_id p) no_attaches) nodes g).
Proof.
  induction nodes as [|p nodes IH]; intros g Hi B R; [exact R|]. cbn [fold_left]. cbn [map] in Hi.
  assert (Hi' : incl (map d_id nodes) ids) by (intros x Hx; apply Hi; right; exact Hx).
  destruct (hasPrev g (d_id p)) eqn:E; [apply IH; assumption|]. apply IH; [exact Hi'|apply attach_backed, B|].
  intros n H. apply attachNode_next in H. destruct H as [H|H].
  - destruct (R n H) as [R1 R2]. split; [exact R1|]. intros m K. apply attachNode_next in K. destruct K as [K|K]; [exact (R2 m K)|discriminate].
  - injection H as ->. split; [apply Hi; left; reflexivity|]. intros m K. apply attachNode_next in K. destruct K as [K|K]; [|discriminate]. apply B in K. cbn [snd] in K. congruence.
Qed.
Lemma compile_roots w : roots_alone (map d_id w) (compileGraph w).
Proof.
  unfold compileGraph, buildGraph.
  destruct (kind_keeps view_traits (fun t => {| as_views := [t]; as_buffers := [] |}) w (b_all (allTransitions view_traits w d_images w)) empty_graph (b_cache (allTransitions view_traits w d_images w))) as [B1 R1].
  { intros e []. } { intros e []. }
  destruct (buildGraph_kind view_traits _ w _ _) as [g1 c1]. cbn [fst] in *.
  destruct (kind_keeps buffer_traits (fun t => {| as_views := []; as_buffers := [t] |}) w (b_all (allTransitions buffer_traits w d_buffers w)) g1 (b_cache (allTransitions buffer_traits w d_buffers w)) B1 R1) as [B2 R2].
  destruct (buildGraph_kind buffer_traits _ w _ _) as [g2 c2]. cbn [fst] in *. apply roots_ok; [intros x H; exact H|exact B2|].
  intros n H. exfalso. exact (R2 _ H eq_refl).
Qed.
Lemma edge_ids w : compiled_order w -> ids_ok w -> well_declared w -> forall a b, In b (getNext (compileGraph w) (Some a)) -> In a (map d_id w) /\ In b (map d_id w).
Proof.
  intros Ho Hi Hd a b H. pose proof (edge_depends w Ho Hi Hd a b H) as D.
  assert (Hb : In b (map d_id w)).
  { clear - D. induction D as [a b H|a b c _ IH _ _]; [|exact IH]. unfold needs_pass in H. destruct (pass_of_split w a) as [E|(bf & p & af & Ew & _ & E1 & Ep)]; [rewrite E in H; destruct H|].
    rewrite Ew, map_app. apply in_or_app. right. left. congruence. }
  split; [|exact Hb]. exact (depends_in w Ho b a D Hb).
Qed.

(* The streams after the visit. *)
Theorem streams_ok nm w fuel : compiled_order w -> ids_ok w -> well_declared w -> (List.length w <= fuel)%nat ->
  exists es st, visitRoot nm fuel (compileGraph w) = Some st /\ Permutation es (flat_map (out_edges (compileGraph w)) (map d_id w)) /\ drawing nm (map d_id w) (compileGraph w) st es.
Proof.
  intros Ho Hi Hd Hf. set (g := compileGraph w).
  destruct (visit_root_ok nm g (map d_id w)) with (fuel := fuel) as (es & st & A & B & C).
  - intros a b H. split; [exact (proj2 (edge_ids w Ho Hi Hd a b H))|]. destruct (edges_sound w Ho Hi Hd a b H) as (_ & x & E & _). fold g in E. congruence.
  - exact (proj1 Ho).
  - exact (getNext_nodup _ _ g None (proj1 (compile_ok w Ho Hi Hd))).
  - intros n H. apply getNext_iff in H. exact (proj1 (compile_roots w n H)).
  - intros x y H K. apply getNext_iff in H, K. exact (proj2 (compile_roots w x H) y K).
  - exact (all_reachable w Ho Hi Hd).
  - rewrite map_length. exact Hf.
  - exists es, st. split; [exact A|]. split; [exact B|]. change es with ([] ++ es)%list. apply (printed_drawing nm (map d_id w) g es first_streams [] st); [|apply drawing_first|exact C].
    intros [a b] H. cbn [fst snd]. apply (Permutation_in _ B) in H. apply in_flat_map in H. destruct H as (x & _ & H). unfold out_edges in H. apply in_map_iff in H. destruct H as (y & E & H). injection E as -> ->.
    destruct (edge_ids w Ho Hi Hd a b H). auto.
Qed.
