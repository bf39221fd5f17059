(* Properties C21-C27 and C52-C54: dependency search, transitions, graph of nodes. *)
From Verif Require Import Spec_Deps Proof_Deps Proof_Graph Proof_Graph2.
From Coq Require Import ZifyBool ZifyNat ZifyN.
Local Open Scope N_scope.

(* A small graph used by the examples: pass 1 renders to a view, pass 2 has nothing to do with it and
   depends on 1, pass 3 depends on 2 and samples the view. *)
Definition ex_image : image := {| i_id := 1; i_width := 16; i_height := 16; i_depth := 1; i_levels := 4; i_layers := 6; i_format := 37 |}.
Definition ex_range (mip levels layer layers : N) : srange := {| r_aspect := ASPECT_COLOR; r_mip := mip; r_levels := levels; r_layer := layer; r_layers := layers |}.
Definition ex_view (id mip levels layer layers : N) : view := mkView id ex_image 0 VT_2D 37 (ex_range mip levels layer layers) [].
Definition ex_v : view := ex_view 1 0 1 0 1.
Definition ex_out (p : N) (v : view) : attach := declare_image addOutputColourView p [v] 0 0 0 0.
Definition ex_in (p : N) (v : view) : attach := declare_image addSampledView p [v] 0 0 0 0.
Definition ex_world : world :=
  [{| d_id := 1; d_images := [ex_out 1 ex_v]; d_buffers := []; d_deps := [] |};
   {| d_id := 2; d_images := [ex_out 2 (ex_view 2 1 1 0 1)]; d_buffers := []; d_deps := [1] |};
   {| d_id := 3; d_images := [ex_in 3 ex_v]; d_buffers := []; d_deps := [2] |}].
Lemma compiled3 a b c : d_id a <> d_id b -> d_id a <> d_id c -> d_id b <> d_id c -> d_deps a = [] -> incl (d_deps b) [d_id a] -> incl (d_deps c) [d_id a; d_id b] -> compiled_order [a; b; c].
Proof.
  intros H1 H2 H3 Ea Eb Ec. split; [cbn; repeat (constructor; [cbn; intuition|]); constructor|].
  intros bf p af E q Hq. destruct bf as [|x [|y [|z bf]]]; cbn in *.
  - injection E as <- <-. rewrite Ea in Hq. destruct Hq.
  - injection E as <- <- <-. apply Eb in Hq. exact Hq.
  - injection E as <- <- <- <-. apply Ec in Hq. exact Hq.
  - exfalso. injection E as _ _ _ E. destruct bf; discriminate.
Qed.
Example ex_world_ok : compiled_order ex_world /\ ids_ok ex_world /\ well_declared ex_world.
Proof.
  split; [apply compiled3; cbn; try discriminate; try reflexivity; intros x H; cbn in *; tauto|]. split.
  - split; [|split].
    + intros p [<-|[<-|[<-|[]]]]; reflexivity.
    + split.
      * intros v. cbn. intros [<-|[<-|[<-|[]]]]; reflexivity.
      * intros a b. cbn. intros [<-|[<-|[<-|[]]]] [<-|[<-|[<-|[]]]]; cbn; intro H; try reflexivity; discriminate.
    + intros a b [].
  - intros p [<-|[<-|[<-|[]]]]; (split; [|intros a []]); intros a [<-|[]]; split; reflexivity.
Qed.

(* C21 *)
Theorem C21_view_keys_injective : forall p v p' v', p < 2 ^ 32 -> v < 2 ^ 32 -> p' < 2 ^ 32 -> v' < 2 ^ 32 ->
  makeHash_view p v = makeHash_view p' v' -> p = p' /\ v = v'.
Proof. exact (fun p v p' v' Hp Hv Hp' Hv' => makeHash_view_inj p v p' v' Hp Hp' Hv Hv'). Qed.
Print Assumptions C21_view_keys_injective.
(* Two different 64-bit buffer handles, and two arrays of buffers with the same first one, share a key. *)
Theorem C21_buffer_keys_refuted :
  (exists h h', h < 2 ^ 64 /\ h' < 2 ^ 64 /\ h <> h' /\ forall p, makeHash_buffer p [h] = makeHash_buffer p [h']) /\
  (exists h h' h'', h' <> h'' /\ forall p, makeHash_buffer p [h; h'] = makeHash_buffer p [h; h'']).
Proof.
  split.
  - exists 1, (2 ^ 32 + 1). repeat split; try reflexivity. discriminate.
  - exists 1, 2, 3. split; [discriminate|reflexivity].
Qed.
Print Assumptions C21_buffer_keys_refuted.
(* What holds: the key determines the pass and the low half of the first handle. *)
Theorem C21_buffer_keys_partial : forall p b p' b', p < 2 ^ 32 -> p' < 2 ^ 32 ->
  (makeHash_buffer p b = makeHash_buffer p' b' <-> p = p' /\ buffer_at b 0 mod 2 ^ 32 = buffer_at b' 0 mod 2 ^ 32).
Proof. exact (fun p b p' b' => makeHash_buffer_inj p b p' b'). Qed.
Print Assumptions C21_buffer_keys_partial.

(* C22 *)
(* Whatever the dependencies (even cyclic) and the content of the cache, the recursion ends: its depth is
   bounded by the number of passes, and a larger bound gives the same answer. *)
Theorem C22_search_terminates : forall isOut isIn w h target self c,
  exists r, forall depth, (S (length w) <= depth)%nat -> dependsOn_fuel isOut isIn w depth h target self c = Some r.
Proof. exact (fun isOut isIn w h t s c => fuel_any isOut isIn w h t s c). Qed.
Print Assumptions C22_search_terminates.
(* Every answer of every history of queries sharing a cache is the specified one. *)
Theorem C22_search_correct : forall w qs, compiled_order w -> pass_ids_ok w -> view_ids_ok (map vq_view qs) ->
  (forall q, In q qs -> In (vq_target q) (map d_id w)) ->
  Forall2 (fun q answer => answer = true <-> first_producer (writes_view (vq_view q)) (reads_view (vq_view q)) w (vq_self q) (vq_target q))
          qs (ask_views w qs []).
Proof. exact (fun w qs Hw Hp Hv Ht => ask_views_ok w Hw Hp qs qs [] Hv (fun x H => H) Ht (table_empty _ _ _ _ _)). Qed.
Print Assumptions C22_search_correct.
Example C22_example : ask_views ex_world
  [{| vq_self := 3; vq_target := 1; vq_view := ex_v |}; {| vq_self := 2; vq_target := 1; vq_view := ex_v |};
   {| vq_self := 3; vq_target := 2; vq_view := ex_v |}; {| vq_self := 3; vq_target := 1; vq_view := ex_v |}] [] = [true; true; false; true].
Proof. vm_compute. reflexivity. Qed.
(* Beyond the property: on a cyclic relation (accepted by compile when no pass is free of dependencies, C04)
   a wrong answer stays in the cache. *)
Definition ex_cycle : world :=
  [{| d_id := 1; d_images := []; d_buffers := []; d_deps := [2; 3] |};
   {| d_id := 2; d_images := []; d_buffers := []; d_deps := [1] |};
   {| d_id := 3; d_images := [ex_out 3 ex_v]; d_buffers := []; d_deps := [1] |}].
Theorem C22_cyclic_cache_refuted : exists w q1 q2,
  first_producer (writes_view (vq_view q2)) (reads_view (vq_view q2)) w (vq_self q2) (vq_target q2) /\
  ask_views w [q2] [] = [true] /\ ask_views w [q1; q2] [] = [true; false].
Proof.
  exists ex_cycle, {| vq_self := 1; vq_target := 3; vq_view := ex_v |}, {| vq_self := 2; vq_target := 3; vq_view := ex_v |}.
  split; [|split; vm_compute; reflexivity]. cbn [vq_view vq_self vq_target].
  apply (fp_through _ _ _ 2 1 3); [left; reflexivity|intros (a & r & [] & _)|intros (a & r & [] & _)|].
  apply fp_direct; [right; left; reflexivity|]. apply isInOutputs_view_iff. vm_compute. reflexivity.
Qed.
Print Assumptions C22_cyclic_cache_refuted.

(* C23 *)
(* A pass which only reads a buffer is found as the producer of this buffer. *)
Definition ex_sbuf (m : buffer_method) (p : N) (b : list N) : attach := declare_buffer m p b 0 0 0 16 no_pstate 0.
Definition ex_readers : world :=
  [{| d_id := 1; d_images := []; d_buffers := [ex_sbuf addInputStorageBuffer 1 [7]]; d_deps := [] |};
   {| d_id := 2; d_images := []; d_buffers := [ex_sbuf addInputStorageBuffer 2 [7]]; d_deps := [1] |};
   {| d_id := 3; d_images := []; d_buffers := []; d_deps := [] |}].
Theorem C23_producers_write_refuted : exists w self target b,
  compiled_order w /\ fst (dependsOn_buffer w self target b []) = true /\ ~ writes_buffer b (pass_of w target).
Proof.
  exists ex_readers, 2, 1, [7]. split; [apply compiled3; cbn; try discriminate; try reflexivity; intros x H; cbn in *; tauto|].
  split; [vm_compute; reflexivity|]. intros (a & Ha & Ho & _). cbn in Ha. destruct Ha as [<-|[]]. discriminate.
Qed.
Print Assumptions C23_producers_write_refuted.
(* A writer is missed when the buffer is written by a transfer. *)
Theorem C23_transfer_writer_refuted : exists w self target b,
  compiled_order w /\ needs_pass w self target /\ writes_buffer b (pass_of w target) /\ fst (dependsOn_buffer w self target b []) = false.
Proof.
  exists [{| d_id := 1; d_images := []; d_buffers := [ex_sbuf addTransferOutputBuffer 1 [7]]; d_deps := [] |};
          {| d_id := 2; d_images := []; d_buffers := [ex_sbuf addInputStorageBuffer 2 [7]]; d_deps := [1] |};
          {| d_id := 3; d_images := []; d_buffers := []; d_deps := [] |}], 2, 1, [7].
  split; [apply compiled3; cbn; try discriminate; try reflexivity; intros x H; cbn in *; tauto|].
  split; [left; reflexivity|]. split; [|vm_compute; reflexivity]. exists (ex_sbuf addTransferOutputBuffer 1 [7]). split; [left; reflexivity|]. split; reflexivity.
Qed.
Print Assumptions C23_transfer_writer_refuted.
(* What holds, for every history: exactly the first pass on the way declaring the buffer as storage. *)
Theorem C23_storage_partial : forall w qs, compiled_order w -> pass_ids_ok w -> buffer_ids_ok (map bq_buffer qs) ->
  (forall q, In q qs -> In (bq_target q) (map d_id w)) ->
  Forall2 (fun q answer => answer = true <-> first_producer (declares_storage (bq_buffer q)) (declares_storage (bq_buffer q)) w (bq_self q) (bq_target q))
          qs (ask_buffers w qs []).
Proof. exact (fun w qs Hw Hp Hv Ht => ask_buffers_ok w Hw Hp qs qs [] Hv (fun x H => H) Ht (table_empty _ _ _ _ _)). Qed.
Print Assumptions C23_storage_partial.
Example C23_example : ask_buffers ex_readers [{| bq_self := 2; bq_target := 1; bq_buffer := [7] |}; {| bq_self := 2; bq_target := 1; bq_buffer := [8] |}] [] = [true; false].
Proof. vm_compute. reflexivity. Qed.

(* C24 *)
Theorem C24_overlap_refuted :
  (* two views with common layers, not found overlapping *)
  (exists a b, proper_range (numbers a) /\ proper_range (numbers b) /\ v_image a = v_image b /\ share_subresource (numbers a) (numbers b) /\ areOverlapping_view a b = false) /\
  (* two views without a common layer, found overlapping *)
  (exists a b, proper_range (numbers a) /\ proper_range (numbers b) /\ v_image a = v_image b /\ ~ share_subresource (numbers a) (numbers b) /\ areOverlapping_view a b = true) /\
  (* not symmetric *)
  (exists a b, proper_range (numbers a) /\ proper_range (numbers b) /\ v_image a = v_image b /\ areOverlapping_view a b <> areOverlapping_view b a).
Proof.
  split; [|split].
  - exists (ex_view 1 0 1 5 1), (ex_view 2 0 1 0 6). repeat split; try (cbn; reflexivity). exists 5, 0. vm_compute. repeat split; try reflexivity; discriminate.
  - exists (ex_view 1 0 1 2 4), (ex_view 2 0 1 0 1). repeat split; try (cbn; reflexivity).
    intros (l & m & H). unfold in_range in H. cbn in H. lia.
  - exists (ex_view 1 0 1 5 1), (ex_view 2 0 1 0 6). repeat split; try (cbn; reflexivity). vm_compute. discriminate.
Qed.
Print Assumptions C24_overlap_refuted.
(* What holds: the mip levels are right; for the layers the count of the first view is used for both. *)
Theorem C24_overlap_partial : forall a b, proper_range (numbers a) -> proper_range (numbers b) ->
  r_layer (numbers b) + r_layers (numbers a) < 2 ^ 32 -> i_id (v_image a) = i_id (v_image b) ->
  (r_layers (numbers a) = r_layers (numbers b) ->
     (areOverlapping_view a b = true <-> share_subresource (numbers a) (numbers b)) /\ areOverlapping_view a b = areOverlapping_view b a) /\
  (r_layers (numbers b) <= r_layers (numbers a) -> share_subresource (numbers a) (numbers b) -> areOverlapping_view a b = true) /\
  (r_layers (numbers a) <= r_layers (numbers b) -> areOverlapping_view a b = true -> share_subresource (numbers a) (numbers b)).
Proof. exact overlap_view_ok. Qed.
Print Assumptions C24_overlap_partial.
Theorem C24_other_images : forall a b, i_id (v_image a) <> i_id (v_image b) -> areOverlapping_view a b = false.
Proof. exact (fun a b H => overlap_other_image a b H). Qed.
Print Assumptions C24_other_images.
Example C24_example : proper_range (numbers (ex_view 1 0 2 2 2)) /\ areOverlapping_view (ex_view 1 0 2 2 2) (ex_view 2 1 1 3 2) = true.
Proof. vm_compute. repeat split; reflexivity. Qed.

(* C25 *)
Theorem C25_match_exact : forall a b, match_view a b = true <-> same_data a b.
Proof. exact match_view_iff. Qed.
Print Assumptions C25_match_exact.
Theorem C25_reflexive : forall a, r_aspect (v_range a) <> 0 -> match_view a a = true.
Proof. exact match_refl. Qed.
Print Assumptions C25_reflexive.
Theorem C25_symmetric : forall a b, (i_id (v_image a) = i_id (v_image b) -> v_image a = v_image b) -> match_view a b = match_view b a.
Proof. exact match_sym. Qed.
Print Assumptions C25_symmetric.
Theorem C25_same_subresources : forall a b, (i_id (v_image a) = i_id (v_image b) -> v_image a = v_image b) -> match_view a b = true ->
  v_image a = v_image b /\ forall layer mip, in_range (numbers a) layer mip <-> in_range (numbers b) layer mip.
Proof. exact match_numbers. Qed.
Print Assumptions C25_same_subresources.
(* Not transitive: depth only, depth and stencil, stencil only. *)
Theorem C25_transitive_refuted : exists a b c, v_image a = v_image b /\ v_image b = v_image c /\ match_view a b = true /\ match_view b c = true /\ match_view a c = false.
Proof.
  pose (mk := fun id aspect => mkView id ex_image 0 VT_2D F_D24_S8 {| r_aspect := aspect; r_mip := 0; r_levels := 1; r_layer := 0; r_layers := 1 |} []).
  exists (mk 1 ASPECT_DEPTH), (mk 2 (N.lor ASPECT_DEPTH ASPECT_STENCIL)), (mk 3 ASPECT_STENCIL). repeat split; reflexivity.
Qed.
Print Assumptions C25_transitive_refuted.
(* Transitive between views with the same aspects, the first one not being 3D. *)
Theorem C25_transitive_partial : forall a b c, (i_id (v_image a) = i_id (v_image b) -> v_image a = v_image b) -> (i_id (v_image b) = i_id (v_image c) -> v_image b = v_image c) ->
  r_aspect (v_range a) = r_aspect (v_range b) -> v_type a <> VT_3D ->
  match_view a b = true -> match_view b c = true -> match_view a c = true.
Proof. exact match_trans. Qed.
Print Assumptions C25_transitive_partial.
Example C25_example : match_view (ex_view 1 0 1 0 1) (mkView 2 ex_image 0 VT_2D_ARRAY 37 (ex_range 0 1 0 1) []) = true.
Proof. reflexivity. Qed.

(* C26, for view and buffer transitions alike.  First, what equality of transitions means. *)
Lemma same_ids a : forall b, list_eqb view_eqb a b = true <-> map v_id a = map v_id b.
Proof.
  induction a as [|x a IH]; intros [|y b]; cbn [list_eqb map]; try (split; discriminate); try (split; reflexivity).
  rewrite andb_true_iff, IH. unfold view_eqb. rewrite N.eqb_eq. split; [intros [-> ->]; reflexivity|intro H; injection H as -> ->; split; reflexivity].
Qed.
Lemma attach_eqb_iff a b : attach_eqb a b = true <-> same_declaration a b.
Proof.
  unfold attach_eqb, same_declaration. rewrite !andb_true_iff, !N.eqb_eq, buffer_eqb_iff, same_ids.
  assert (O : opt_eqb (at_pass a) (at_pass b) = true <-> at_pass a = at_pass b).
  { destruct (at_pass a) as [x|], (at_pass b) as [y|]; cbn [opt_eqb]; try (split; discriminate); try (split; reflexivity). rewrite N.eqb_eq. split; [intros ->; reflexivity|intro H; injection H as ->; reflexivity]. }
  rewrite O. tauto.
Qed.
Theorem C26_equality : forall x y,
  trans_eqb view_traits x y = true <-> same_transition same_data x y.
Proof. intros x y. unfold trans_eqb, same_transition. rewrite !andb_true_iff, !attach_eqb_iff. cbn [view_traits k_same]. rewrite match_view_iff. tauto. Qed.
Print Assumptions C26_equality.
Theorem C26_buffer_equality : forall x y,
  trans_eqb buffer_traits x y = true <-> same_transition eq x y.
Proof. intros x y. unfold trans_eqb, same_transition. rewrite !andb_true_iff, !attach_eqb_iff. cbn [buffer_traits k_same]. rewrite buffer_eqb_iff. tauto. Qed.
Print Assumptions C26_buffer_equality.
Lemma eqb_false_iff {D} (k : traits D) (P : transition D -> transition D -> Prop) : (forall x y, trans_eqb k x y = true <-> P x y) -> forall x y, trans_eqb k x y = false -> ~ P x y.
Proof. intros H x y E C. apply H in C. congruence. Qed.
Theorem C26_merge_view_transitions : forall l, let m := mergeIdentical view_traits l in
  sublist m l /\ (forall x, In x l -> exists y, In y m /\ (y = x \/ same_transition same_data y x)) /\
  (forall before x between y after_, m = before ++ x :: between ++ y :: after_ -> ~ same_transition same_data x y).
Proof.
  intro l. destruct (merge_all_ok view_traits l) as (A & B & C). split; [exact A|]. split.
  - intros x Hx. destruct (B x Hx) as (y & Hy & H). exists y. split; [exact Hy|]. rewrite <- C26_equality. exact H.
  - intros bf x bt y af E. apply (eqb_false_iff view_traits _ C26_equality), (C bf x bt y af E).
Qed.
Print Assumptions C26_merge_view_transitions.
Theorem C26_merge_buffer_transitions : forall l, let m := mergeIdentical buffer_traits l in
  sublist m l /\ (forall x, In x l -> exists y, In y m /\ (y = x \/ same_transition eq y x)) /\
  (forall before x between y after_, m = before ++ x :: between ++ y :: after_ -> ~ same_transition eq x y).
Proof.
  intro l. destruct (merge_all_ok buffer_traits l) as (A & B & C). split; [exact A|]. split.
  - intros x Hx. destruct (B x Hx) as (y & Hy & H). exists y. split; [exact Hy|]. rewrite <- C26_buffer_equality. exact H.
  - intros bf x bt y af E. apply (eqb_false_iff buffer_traits _ C26_buffer_equality), (C bf x bt y af E).
Qed.
Print Assumptions C26_merge_buffer_transitions.
(* Equality does not look at the layout wanted by an implicit attachment, nor at the binding: transitions to two different
   layouts are merged and the second one is lost. *)
Theorem C26_wanted_layout_ignored_refuted : exists x y, a_getImageLayout (t_in x) false <> a_getImageLayout (t_in y) false /\ mergeIdentical view_traits [x; y] = [x].
Proof.
  exists {| t_data := ex_v; t_out := ex_out 1 ex_v; t_in := declare_image addImplicitColourView 2 [ex_v] 0 L_TRANSFER_SRC 0 0 |},
         {| t_data := ex_v; t_out := ex_out 1 ex_v; t_in := declare_image addImplicitColourView 2 [ex_v] 0 L_PRESENT_SRC 0 0 |}.
  split; [discriminate|reflexivity].
Qed.
Print Assumptions C26_wanted_layout_ignored_refuted.
Example C26_example : let t p q := {| t_data := ex_v; t_out := ex_out p ex_v; t_in := ex_in q ex_v |} in
  mergeIdentical view_traits [t 1 2; t 1 3; t 1 2; t 2 3; t 1 3] = [t 1 2; t 1 3; t 2 3].
Proof. vm_compute. reflexivity. Qed.

(* C27 *)
(* An edge carries at least one transition, and all its transitions go from the pass to its successor. *)
Theorem C27_edges_sound : forall w, compiled_order w -> ids_ok w -> well_declared w ->
  forall a b, In b (getNext (compileGraph w) (Some a)) ->
    depends w b a /\
    exists x, getInputAttaches (compileGraph w) b (Some a) = Some x /\ (as_views x <> [] \/ as_buffers x <> []) /\
      (forall t, In t (as_views x) -> carries_view w a b t) /\ (forall t, In t (as_buffers x) -> carries_buffer w a b t).
Proof. exact edges_sound. Qed.
Print Assumptions C27_edges_sound.
Theorem C27_successors_once : forall w, compiled_order w -> ids_ok w -> well_declared w -> forall n, NoDup (getNext (compileGraph w) n).
Proof. exact (fun w Ho Hi Hd n => getNext_nodup _ _ (compileGraph w) n (proj1 (compile_ok w Ho Hi Hd))). Qed.
Print Assumptions C27_successors_once.
Theorem C27_all_reachable : forall w, compiled_order w -> ids_ok w -> well_declared w -> forall p, In p w -> reachable (compileGraph w) (d_id p).
Proof. exact (fun w Ho Hi Hd p Hp => all_reachable w Ho Hi Hd (d_id p) (in_map d_id w p Hp)). Qed.
Print Assumptions C27_all_reachable.
Example C27_example : getNext (compileGraph ex_world) None = [1; 2] /\ getNext (compileGraph ex_world) (Some 1) = [3].
Proof. vm_compute. split; reflexivity. Qed.

(* C52: completeness of the edges *)
Theorem C52_view_edges_complete_partial : forall w, compiled_order w -> ids_ok w -> well_declared w ->
  forall a b o i, In a w -> In b w -> In o (d_images a) -> isOutput o = true -> In i (d_images b) -> isInput i = true ->
  viewed i = viewed o -> proper_range (numbers (viewed o)) ->
  first_producer (writes_view (viewed o)) (reads_view (viewed o)) w (d_id b) (d_id a) ->
  In (d_id b) (getNext (compileGraph w) (Some (d_id a))).
Proof. exact same_view_edge. Qed.
Print Assumptions C52_view_edges_complete_partial.
Theorem C52_buffer_edges_complete_partial : forall w, compiled_order w -> ids_ok w -> well_declared w ->
  forall a b o i, In a w -> In b w -> In o (d_buffers a) -> isOutput o = true -> isStorageBuffer o = true ->
  In i (d_buffers b) -> isInput i = true -> (isStorageBuffer i = true \/ isUniformBuffer i = true \/ isTransitionBuffer i = true) ->
  ba_buffers i = ba_buffers o ->
  first_producer (declares_storage (ba_buffers o)) (declares_storage (ba_buffers o)) w (d_id b) (d_id a) ->
  In (d_id b) (getNext (compileGraph w) (Some (d_id a))).
Proof. exact same_buffer_edge. Qed.
Print Assumptions C52_buffer_edges_complete_partial.
Example C52_example : first_producer (writes_view ex_v) (reads_view ex_v) ex_world 3 1 /\ proper_range (numbers ex_v).
Proof.
  split; [|repeat split; reflexivity].
  apply (fp_through _ _ _ 3 2 1); [left; reflexivity| | |apply fp_direct; [left; reflexivity|]].
  - intro H. apply isInOutputs_view_iff in H. discriminate.
  - intro H. apply isInInputs_view_iff in H. discriminate.
  - apply isInOutputs_view_iff. reflexivity.
Qed.
(* Views that are not the same.  What the dependencies must lead to is the view written when one of its levels is read, else the view read: a pass that has the
   view read among the parts of what it writes.  The view read is the one with more layers (else C24_overlap_refuted). *)
Lemma level_iff v u : r_mip (v_range u) + r_levels (v_range u) < 2 ^ 32 -> (isSingleMipView v u = true <-> one_level_of v u).
Proof.
  intro H. unfold isSingleMipView, one_level_of, isInRange. rewrite !andb_true_iff, !N.eqb_eq, N.leb_le, N.ltb_lt. unfold u32. rewrite N.mod_small by exact H. intuition congruence.
Qed.
Lemma virtual_mips v : r_mip (numbers v) = r_mip (v_range v) /\ r_levels (numbers v) = r_levels (v_range v).
Proof. unfold numbers, numbers_on, getVirtualRange. destruct (andb _ _); split; reflexivity. Qed.
Theorem C52_other_views_partial : forall w, compiled_order w -> ids_ok w -> well_declared w ->
  forall a b o i, In a w -> In b w -> In o (d_images a) -> isOutput o = true -> In i (d_images b) -> isInput i = true ->
  i_id (v_image (viewed i)) = i_id (v_image (viewed o)) -> proper_range (numbers (viewed i)) -> proper_range (numbers (viewed o)) ->
  r_layers (numbers (viewed o)) <= r_layers (numbers (viewed i)) -> r_layer (numbers (viewed o)) + r_layers (numbers (viewed i)) < 2 ^ 32 ->
  share_subresource (numbers (viewed i)) (numbers (viewed o)) -> ~ same_data (viewed i) (viewed o) -> ~ same_data (viewed o) (viewed i) ->
  (one_level_of (viewed i) (viewed o) -> first_producer (writes_view (viewed o)) (reads_view (viewed o)) w (d_id b) (d_id a)) ->
  (~ one_level_of (viewed i) (viewed o) -> first_producer (writes_view (viewed i)) (reads_view (viewed i)) w (d_id b) (d_id a)) ->
  In (d_id b) (getNext (compileGraph w) (Some (d_id a))).
Proof.
  intros w Ho Hi Hd a b o i Ia Ib Io Ko Ii Ki Im Pi Po Ly Lm Sh N1 N2 F1 F2.
  assert (M : forall x y, ~ same_data x y -> match_view x y = false) by (intros x y Nd; destruct (match_view x y) eqn:E; [apply C25_match_exact in E; contradiction|reflexivity]).
  apply (edge_view_query w Ho Hi Hd a b o i Ia Ib Io Ko Ii Ki); [|apply M, N1|apply M, N2|].
  - destruct (overlap_view_ok (viewed i) (viewed o) Pi Po Lm Im) as (_ & X & _). apply X; assumption.
  - assert (B : r_mip (v_range (viewed o)) + r_levels (v_range (viewed o)) < 2 ^ 32) by (destruct Po as (_ & _ & P & _); destruct (virtual_mips (viewed o)) as [<- <-]; exact P).
    unfold getOutputView. destruct (isSingleMipView (viewed i) (viewed o)) eqn:E.
    + apply F1. apply level_iff; assumption.
    + apply F2. intro L. apply level_iff in L; [congruence|exact B].
Qed.
Print Assumptions C52_other_views_partial.
(* Pass 1 writes levels 0 and 1, pass 2 depends on it and samples level 1 only. *)
Definition ex_level : world :=
  [{| d_id := 1; d_images := [ex_out 1 (ex_view 1 0 2 0 1)]; d_buffers := []; d_deps := [] |};
   {| d_id := 2; d_images := [ex_in 2 (ex_view 2 1 1 0 1)]; d_buffers := []; d_deps := [1] |};
   {| d_id := 3; d_images := []; d_buffers := []; d_deps := [] |}].
Example C52_other_views_applies :
  let o := ex_view 1 0 2 0 1 in let i := ex_view 2 1 1 0 1 in
  compiled_order ex_level /\ one_level_of i o /\ share_subresource (numbers i) (numbers o) /\ ~ same_data i o /\ ~ same_data o i /\
  first_producer (writes_view o) (reads_view o) ex_level 2 1 /\ getNext (compileGraph ex_level) (Some 1) = [2].
Proof.
  cbv zeta. split; [apply compiled3; cbn; try discriminate; try reflexivity; intros x H; cbn in *; tauto|]. split; [vm_compute; repeat split; discriminate|].
  split; [exists 0, 1; vm_compute; repeat split; discriminate|]. split; [intros (_ & _ & _ & _ & X); vm_compute in X; destruct X as [X _]; discriminate X|].
  split; [intros (_ & _ & _ & _ & X); vm_compute in X; destruct X as [X _]; discriminate X|].
  split; [apply fp_direct; [left; reflexivity|apply isInOutputs_view_iff; reflexivity]|]. vm_compute. reflexivity.
Qed.
(* A view overlapping but not equal to what was written gives no edge: pass 1 writes level 0, pass 2
   depends on it and samples levels 0 and 1. *)
Definition ex_mips : world :=
  [{| d_id := 1; d_images := [ex_out 1 (ex_view 1 0 1 0 1)]; d_buffers := []; d_deps := [] |};
   {| d_id := 2; d_images := [ex_in 2 (ex_view 2 0 2 0 1)]; d_buffers := []; d_deps := [1] |};
   {| d_id := 3; d_images := []; d_buffers := []; d_deps := [] |}].
Theorem C52_sub_range_refuted : exists w a b o i, compiled_order w /\ In o (d_images (pass_of w a)) /\ isOutput o = true /\
  In i (d_images (pass_of w b)) /\ isInput i = true /\ needs_pass w b a /\ v_image (viewed o) = v_image (viewed i) /\
  share_subresource (numbers (viewed o)) (numbers (viewed i)) /\
  getNext (compileGraph w) (Some a) = [].
Proof.
  exists ex_mips, 1, 2, (ex_out 1 (ex_view 1 0 1 0 1)), (ex_in 2 (ex_view 2 0 2 0 1)).
  split; [apply compiled3; cbn; try discriminate; try reflexivity; intros x H; cbn in *; tauto|].
  do 4 (split; [first [left; reflexivity|reflexivity]|]). split; [left; reflexivity|]. split; [reflexivity|]. split; [exists 0, 0; vm_compute; repeat split; try reflexivity; discriminate|].
  vm_compute. reflexivity.
Qed.
Print Assumptions C52_sub_range_refuted.
(* A buffer written by a transfer and read as storage gives no edge. *)
Theorem C52_transfer_buffer_refuted : exists w a b, compiled_order w /\ needs_pass w b a /\ writes_buffer [7] (pass_of w a) /\
  declares_storage [7] (pass_of w b) /\ getNext (compileGraph w) (Some a) = [].
Proof.
  exists [{| d_id := 1; d_images := []; d_buffers := [ex_sbuf addTransferOutputBuffer 1 [7]]; d_deps := [] |};
          {| d_id := 2; d_images := []; d_buffers := [ex_sbuf addInputStorageBuffer 2 [7]]; d_deps := [1] |};
          {| d_id := 3; d_images := []; d_buffers := []; d_deps := [] |}], 1, 2.
  split; [apply compiled3; cbn; try discriminate; try reflexivity; intros x H; cbn in *; tauto|].
  split; [left; reflexivity|]. split; [exists (ex_sbuf addTransferOutputBuffer 1 [7]); split; [left; reflexivity|split; reflexivity]|].
  split; [exists (ex_sbuf addInputStorageBuffer 2 [7]); split; [left; reflexivity|split; reflexivity]|]. vm_compute. reflexivity.
Qed.
Print Assumptions C52_transfer_buffer_refuted.

(* C53: attachments without dependency and RunnableGraph::getTransitions *)
Definition all_view_transitions (w : world) : list (transition view) := b_all (allTransitions view_traits w d_images w).
(* Pass 2 samples what pass 1 renders and renders another image nobody reads: nothing about the latter. *)
Definition ex_pair : world :=
  [{| d_id := 1; d_images := [ex_out 1 ex_v]; d_buffers := []; d_deps := [] |};
   {| d_id := 2; d_images := [ex_in 2 ex_v; ex_out 2 (ex_view 2 1 1 0 1)]; d_buffers := []; d_deps := [1] |};
   {| d_id := 3; d_images := []; d_buffers := []; d_deps := [] |}].
Theorem C53_lonely_attachment_refuted : exists w p a, compiled_order w /\ In p w /\ In a (d_images p) /\ isOutput a = true /\
  (forall q x, In q w -> In x (d_images q) -> v_id (viewed x) = v_id (viewed a) -> q = p) /\
  forall t, In t (all_view_transitions w) -> t_in t <> a /\ t_out t <> a.
Proof.
  exists ex_pair, {| d_id := 2; d_images := [ex_in 2 ex_v; ex_out 2 (ex_view 2 1 1 0 1)]; d_buffers := []; d_deps := [1] |}, (ex_out 2 (ex_view 2 1 1 0 1)).
  split; [apply compiled3; cbn; try discriminate; try reflexivity; intros x H; cbn in *; tauto|].
  split; [right; left; reflexivity|]. split; [right; left; reflexivity|]. split; [reflexivity|]. split.
  - intros q x [<-|[<-|[<-|[]]]] Hx E; [|reflexivity|destruct Hx]. destruct Hx as [<-|[]]. discriminate.
  - intros t Ht. vm_compute in Ht. repeat (destruct Ht as [<-|Ht]; [split; intro E; discriminate E|]). destruct Ht.
Qed.
Print Assumptions C53_lonely_attachment_refuted.
(* An attachment both read and written by the only pass using it has no transition at all. *)
Theorem C53_inout_refuted : exists w p a, In p w /\ In a (d_images p) /\ isInput a = true /\ isOutput a = true /\ all_view_transitions w = [].
Proof.
  pose (a := declare_image addInOutColourView 1 [ex_v] 0 0 0 0).
  exists [{| d_id := 1; d_images := [a]; d_buffers := []; d_deps := [] |}], {| d_id := 1; d_images := [a]; d_buffers := []; d_deps := [] |}, a.
  split; [left; reflexivity|]. split; [left; reflexivity|]. split; [reflexivity|]. split; [reflexivity|]. vm_compute. reflexivity.
Qed.
Print Assumptions C53_inout_refuted.

(* What is true: a pass that receives nothing from the others has all its attachments listed, when what
   they are about is only read, or only written, by the passes of the graph.  The attachment is shown as
   coming from nothing when it is sampled or a colour input, else as going to nothing. *)
Definition from_nothing {D} (t : transition D) (a : attach) : Prop := t_in t = a /\ at_pass (t_out t) = None.
Definition to_nothing {D} (t : transition D) (a : attach) : Prop := t_out t = a /\ at_pass (t_in t) = None.
Definition all_buffer_transitions (w : world) : list (transition (list N)) := b_all (allTransitions buffer_traits w d_buffers w).
Theorem C53_view_listed_partial : forall w, compiled_order w -> ids_ok w -> well_declared w ->
  forall p a, In p w -> In a (d_images p) -> (isInput a = true \/ isOutput a = true) ->
  (forall q t, ~ carries_view w q (d_id p) t) ->
  ((forall q x, In q w -> In x (d_images q) -> i_id (v_image (viewed x)) = i_id (v_image (viewed a)) -> isOutput x = false) \/
   (forall q x, In q w -> In x (d_images q) -> i_id (v_image (viewed x)) = i_id (v_image (viewed a)) -> isInput x = false)) ->
  exists t a', In t (all_view_transitions w) /\ same_declaration a' a /\ t_data t = viewed a /\
    if orb (andb (isInput a) (isColourAttach a)) (isSampledView a) then from_nothing t a' else to_nothing t a'.
Proof.
  intros w Ho Hi Hd p a Hp Ha Hs Hn Hl. destruct (view_listed w Ho Hi Hd p a Hp Ha Hs Hn Hl) as (a' & _ & H1 & H2 & H3).
  exists (remaining_transition view_traits a'), a'. split; [exact H3|]. apply attach_eqb_iff in H1. split; [exact H1|]. destruct H1 as (_ & F1 & (F2 & _) & _).
  unfold remaining_transition. cbn [k_get k_remaining_input k_default view_traits]. change (attach_view a' 0) with (viewed a').
  replace (orb (isColourInputAttach a') (isSampledView a')) with (orb (andb (isInput a) (isColourAttach a)) (isSampledView a)).
  - destruct (orb _ _); cbn; (split; [exact H2|split; reflexivity]).
  - unfold isColourInputAttach, isInput, isColourAttach, isSampledView, isTransitionView, isStorageView, isTransferView, isDepthAttach, isStencilAttach, isImage. rewrite F1, F2. reflexivity.
Qed.
Print Assumptions C53_view_listed_partial.
Theorem C53_buffer_listed_partial : forall w, compiled_order w -> ids_ok w -> well_declared w ->
  forall p a, In p w -> In a (d_buffers p) ->
  (isInput a = true /\ (isStorageBuffer a = true \/ isUniformBuffer a = true \/ isTransitionBuffer a = true) \/ isOutput a = true /\ isStorageBuffer a = true) ->
  (forall q t, ~ carries_buffer w q (d_id p) t) ->
  ((forall q x, In q w -> In x (d_buffers q) -> buffer_at (ba_buffers x) 0 = buffer_at (ba_buffers a) 0 -> isOutput x = false) \/
   (forall q x, In q w -> In x (d_buffers q) -> buffer_at (ba_buffers x) 0 = buffer_at (ba_buffers a) 0 -> isInput x = false)) ->
  exists t a', In t (all_buffer_transitions w) /\ same_declaration a' a /\ t_data t = ba_buffers a /\
    if isInput a then from_nothing t a' else to_nothing t a'.
Proof.
  intros w Ho Hi Hd p a Hp Ha Hs Hn Hl. destruct (buffer_listed w Ho Hi Hd p a Hp Ha) as (a' & _ & H1 & H3); [|exact Hn|exact Hl|].
  { cbn. rewrite !andb_true_iff, !orb_true_iff. exact Hs. }
  exists (remaining_transition buffer_traits a'), a'. split; [exact H3|]. apply attach_eqb_iff in H1. split; [exact H1|]. destruct H1 as (_ & F1 & _ & _ & F2 & _).
  unfold remaining_transition. cbn [k_get k_remaining_input k_default buffer_traits].
  replace (isInput a') with (isInput a) by (unfold isInput; rewrite F1; reflexivity). destruct (isInput a); cbn; (split; [exact F2|split; reflexivity]).
Qed.
Print Assumptions C53_buffer_listed_partial.
(* A pass without dependency receives nothing. *)
Lemma first_needs produces consumes w b a : first_producer produces consumes w b a -> d_deps (pass_of w b) <> [].
Proof. intros [? ? H _|? ? ? H _ _ _] E; unfold needs_pass in H; rewrite E in H; destruct H. Qed.
Definition ex_lonely : world :=
  [{| d_id := 1; d_images := [ex_out 1 ex_v; ex_out 1 (ex_view 2 1 1 0 1)]; d_buffers := [ex_sbuf addOutputStorageBuffer 1 [7]; ex_sbuf addOutputStorageBuffer 1 [8]]; d_deps := [] |};
   {| d_id := 2; d_images := []; d_buffers := []; d_deps := [1] |}; {| d_id := 3; d_images := []; d_buffers := []; d_deps := [] |}].
Example C53_example : compiled_order ex_lonely /\ ids_ok ex_lonely /\ well_declared ex_lonely /\
  (forall q t, ~ carries_view ex_lonely q 1 t) /\ (forall q t, ~ carries_buffer ex_lonely q 1 t) /\
  length (all_view_transitions ex_lonely) = 2%nat /\ length (all_buffer_transitions ex_lonely) = 2%nat /\
  (forall q x, In q ex_lonely -> In x (d_images q) -> isInput x = false) /\ (forall q x, In q ex_lonely -> In x (d_buffers q) -> isInput x = false).
Proof.
  split; [apply compiled3; cbn; try discriminate; try reflexivity; intros x H; cbn in *; tauto|]. split.
  { split; [|split].
    - intros p [<-|[<-|[<-|[]]]]; reflexivity.
    - split; [intros v; cbn; intros [<-|[<-|[]]]; reflexivity|intros a b; cbn; intros [<-|[<-|[]]] [<-|[<-|[]]]; cbn; intro H; try reflexivity; discriminate].
    - intros a b; cbn; intros [<-|[<-|[]]] [<-|[<-|[]]]; cbn; intro H; try reflexivity; discriminate. }
  split. { intros p [<-|[<-|[<-|[]]]]; split; intros a Ha; cbn in Ha; try destruct Ha as [<-|[<-|[]]]; try destruct Ha; split; reflexivity. }
  split. { intros q t (_ & _ & _ & H). apply first_needs in H. apply H. reflexivity. }
  split. { intros q t (_ & _ & _ & H). apply first_needs in H. apply H. reflexivity. }
  split; [vm_compute; reflexivity|]. split; [vm_compute; reflexivity|].
  split; intros q x [<-|[<-|[<-|[]]]]; cbn; try (intros [<-|[<-|[]]]; reflexivity); intros [].
Qed.
(* The direction is wrong for the other inputs: a view read by a transfer, and used by nobody else, is
   shown as going to nothing. *)
Theorem C53_direction_refuted : exists w p a, compiled_order w /\ In p w /\ d_images p = [a] /\ isInput a = true /\ isOutput a = false /\
  all_view_transitions w <> [] /\ forall t, In t (all_view_transitions w) -> to_nothing t a.
Proof.
  pose (a := declare_image addTransferInputView 1 [ex_v] 0 0 0 0).
  exists [{| d_id := 1; d_images := [a]; d_buffers := []; d_deps := [] |}; {| d_id := 2; d_images := []; d_buffers := []; d_deps := [] |}; {| d_id := 3; d_images := []; d_buffers := []; d_deps := [] |}],
    {| d_id := 1; d_images := [a]; d_buffers := []; d_deps := [] |}, a.
  split; [apply compiled3; cbn; try discriminate; try reflexivity; intros x H; cbn in *; tauto|].
  split; [left; reflexivity|]. do 3 (split; [reflexivity|]). split; [vm_compute; discriminate|].
  intros t Ht. vm_compute in Ht. destruct Ht as [<-|[]]. split; reflexivity.
Qed.
Print Assumptions C53_direction_refuted.

(* C54: merged views.  Pass 1 writes a merged view, pass 2 depends on it and samples the very same view. *)
Definition ex_merged : view := mergeViews 9 false [ex_view 1 0 1 0 1; ex_view 2 1 1 0 1] true false.
Theorem C54_merged_view_refuted : exists w a b, compiled_order w /\ needs_pass w b a /\
  (exists o i, In o (d_images (pass_of w a)) /\ isOutput o = true /\ In i (d_images (pass_of w b)) /\ isInput i = true /\ viewed o = viewed i) /\
  getNext (compileGraph w) (Some a) = [].
Proof.
  exists [{| d_id := 1; d_images := [ex_out 1 ex_merged]; d_buffers := []; d_deps := [] |};
          {| d_id := 2; d_images := [ex_in 2 ex_merged]; d_buffers := []; d_deps := [1] |};
          {| d_id := 3; d_images := []; d_buffers := []; d_deps := [] |}], 1, 2.
  split; [apply compiled3; cbn; try discriminate; try reflexivity; intros x H; cbn in *; tauto|].
  split; [left; reflexivity|]. split; [|vm_compute; reflexivity].
  exists (ex_out 1 ex_merged), (ex_in 2 ex_merged). split; [left; reflexivity|]. split; [reflexivity|]. split; [left; reflexivity|]. split; reflexivity.
Qed.
Print Assumptions C54_merged_view_refuted.
(* What holds: the passes writing one of the sources as a plain view are found for the merged view. *)
Theorem C54_source_writer_partial : forall w, compiled_order w -> ids_ok w ->
  forall a b m, In a w -> In m (attachment_views w) ->
  fst (dependsOn_view w (d_id b) (d_id a) m []) = true <-> first_producer (writes_view m) (reads_view m) w (d_id b) (d_id a).
Proof. exact query_once. Qed.
Print Assumptions C54_source_writer_partial.
Example C54_example : fst (dependsOn_view
  [{| d_id := 1; d_images := [ex_out 1 (ex_view 2 1 1 0 1)]; d_buffers := []; d_deps := [] |};
   {| d_id := 2; d_images := [ex_in 2 ex_merged]; d_buffers := []; d_deps := [1] |}] 2 1 ex_merged []) = true.
Proof. vm_compute. reflexivity. Qed.
