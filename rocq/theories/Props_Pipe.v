(* C46, C47, C62, C63, C64: pipelines, descriptors and the deletion queue. *)
From Verif Require Import Spec_Pipe Proof_Pipe3 Proof_Pipe5 Proof_Pipe6 Proof_Pipe7.
From Coq Require Import Lia ZifyBool ZifyNat ZifyN.
Local Open Scope N_scope.

(* Concrete attachments and histories used below. *)
Definition ex_view (n : N) : view := mkView n dummy_image 0 0 37 dummy_range [].
Definition ex_sampled (b : N) : attach := declare_image addSampledView 1 [ex_view b] b 0 0 0.
Definition ex_storage (b : N) : attach := declare_image addInOutStorageView 1 [ex_view b] b 0 0 0.
Definition ex_uniform (b : N) : attach := declare_buffer addUniformBuffer 1 [7] b 0 0 16 no_pstate 0.
Definition ex_images := [ex_sampled 0; ex_sampled 1; ex_storage 2].
Definition ex_buffers := [ex_uniform 3].
(* a quad, a mesh whose render pass is made twice, a compute pass with one program per index; resets and frames *)
Definition ex_ops : list pop :=
  [ONew 1 1 Quad 1 2 ex_images ex_buffers None; ONew 2 1 Mesh 2 2 [ex_sampled 5] [] None; ONew 3 1 Compute 2 2 [ex_storage 0] [] None;
   ORun 1 [(1, 0%nat, Some 50); (2, 0%nat, Some 51); (3, 0%nat, None)];
   OReset 1 0 None; OReset 3 0 None; OReset 2 0 None; ORecord 3 0 None;
   ORun 1 [(1, 1%nat, Some 52); (2, 1%nat, Some 53); (3, 1%nat, None)];
   OWait 1; ODestroy 3; ODestroy 1; ODestroy 2].
Ltac evalw w := let w' := eval vm_compute in w in change w with w'.
Ltac sane_tac := repeat match goal with
  | |- True => exact I
  | |- sane _ [] => exact I
  | |- sane ?w (?o :: ?r) => change (op_sane w o /\ sane (pstep w o) r); split; [|let w' := eval vm_compute in (pstep w o) in change (sane w' r)]
  | |- op_sane _ (ONew _ _ _ _ _ _ _ _) => cbn [op_sane]; lia
  | |- op_sane ?w (ORecord ?id ?i ?rp) => change (record_sane w id i rp)
  | |- op_sane ?w (OReset ?id ?i _) => change (pass_index_ok w id i)
  | |- op_sane ?w (ODestroy _) => exact I
  | |- op_sane ?w (OWait _) => exact I
  | |- op_sane ?w (ORun ?g ?l) => let w' := eval vm_compute in (on_driver (fun d => log d [PWaited g]) w) in change (records_sane w' l)
  | |- records_sane _ [] => exact I
  | |- records_sane ?w ((?id, ?i, ?rp) :: ?r) => change (record_sane w id i rp /\ records_sane (fst (do_record w id i rp)) r);
      split; [|let w' := eval vm_compute in (fst (do_record w id i rp)) in change (records_sane w' r)]
  | |- record_sane _ _ _ _ => split; [|split; [|intros ? ?X; first [discriminate X|injection X as <-; discriminate]]]
  | |- pass_index_ok _ _ _ => intros ? ?X; vm_compute in X; first [discriminate X|injection X as <-; cbn; lia]
  | |- forall p, mfind _ _ = _ -> _ => intros ? ?X ?Y ?Z; vm_compute in X; first [discriminate X|injection X as <-; cbn in *; congruence]
  end.
Lemma ex_sane : sane new_pworld ex_ops.
Proof. unfold ex_ops. sane_tac. Qed.
Lemma idle_check w : (forall g l, In (g, l) (pending [] (dr_log (pw_driver w))) -> l = []) -> idle w.
Proof. intros H h (g & l & E & X). apply mfind_in' in E. rewrite (H g l E) in X. destruct X. Qed.
Ltac idle_tac := apply idle_check; intros ?g ?l ?X; vm_compute in X; repeat (destruct X as [X|X]; [injection X as <- <-; reflexivity|]); destruct X.
Ltac one_tac := repeat match goal with
  | |- one_graph _ _ [] => exact I
  | |- one_graph ?g ?w (?o :: ?r) => change (op_one_graph g w o /\ one_graph g (pstep w o) r); split; [|let w' := eval vm_compute in (pstep w o) in change (one_graph g w' r)]
  | |- op_one_graph _ _ (ONew _ _ _ _ _ _ _ _) => exact I
  | |- op_one_graph _ _ (OReset _ _ _) => exact I
  | |- op_one_graph _ _ (OWait _) => exact I
  | |- op_one_graph _ _ (ORun _ _) => split; [reflexivity|cbn; repeat constructor; cbn; intuition discriminate]
  | |- op_one_graph _ ?w (ODestroy _) => change (idle w); idle_tac
  | |- op_one_graph _ _ (ORecord _ _ _) => intros ? ? ? ?Z; exfalso; apply Z; reflexivity
  end.
Lemma ex_one_graph : one_graph 1 new_pworld ex_ops.
Proof. unfold ex_ops. one_tac. Qed.
Lemma ex_compute_ok : compute_ok new_pworld ex_ops.
Proof.
  cbn [compute_ok ex_ops]. repeat match goal with |- _ /\ _ => split | |- True => exact I end; try reflexivity;
    intros p E; vm_compute in E; injection E as <-; try discriminate; reflexivity.
Qed.
Lemma ex_closed : all_closed ex_ops. Proof. vm_compute. split; reflexivity. Qed.
Lemma ex_fit : Forall op_counts_fit ex_ops. Proof. repeat (constructor; [try exact I; vm_compute; split; reflexivity|]). constructor. Qed.
Lemma ex_declared : Forall op_declared ex_ops.
Proof.
  assert (S : forall b, declared_image (ex_sampled b)) by (intro b; unfold declared_image; repeat eexists; reflexivity).
  assert (T : forall b, declared_image (ex_storage b)) by (intro b; unfold declared_image; repeat eexists; reflexivity).
  unfold ex_ops. repeat match goal with |- Forall op_declared _ => constructor | |- op_declared _ => cbn [op_declared ex_images]; repeat constructor end; auto.
Qed.

(* C46: the pool of a pass can hold every set allocated from it, has one entry per type, and sets are allocated while
   their pool and their layout exist. *)
Theorem C46_pools_hold_their_sets : forall ops, sane new_pworld ops -> Forall op_counts_fit ops ->
  (forall pool maxSets sizes, In (PPool pool maxSets sizes) (calls ops) ->
     NoDup (map fst sizes) /\ N.of_nat (length (sets_from (calls ops) pool)) <= maxSets /\
     forall t, total_needs t (sets_from (calls ops) pool) <= holds_of t sizes) /\
  each alloc_living (calls ops).
Proof.
  intros ops S F. destruct (WP_run ops new_pworld WP_new S F) as (_ & _ & (_ & _ & G3 & G4) & _). split; [|exact G4].
  intros pool ms sz X. destruct (G3 pool ms sz X) as (_ & A & B & C). auto.
Qed.
Print Assumptions C46_pools_hold_their_sets.
Example C46_example : In (PPool 3 2 [(DT_COMBINED, 4); (DT_STORAGE_IMAGE, 2); (DT_UNIFORM_BUFFER, 2)]) (calls ex_ops) /\
  length (sets_from (calls ex_ops) 3) = 2%nat /\ total_needs DT_COMBINED (sets_from (calls ex_ops) 3) = 4 /\ sane new_pworld ex_ops /\ Forall op_counts_fit ex_ops.
Proof. split; [vm_compute; auto 20|]. split; [reflexivity|]. split; [reflexivity|]. split; [exact ex_sane|exact ex_fit]. Qed.

(* C46: without the bound on the counts, the 32-bit product wraps. *)
Theorem C46_wraps_refuted : exists bindings maxSets t,
  holds_of t (getBindingsSizes bindings maxSets) < maxSets * needs_of t bindings.
Proof.
  exists [{| db_binding := 0; db_type := DT_COMBINED; db_count := 2 |}], 2147483648, DT_COMBINED. vm_compute. reflexivity.
Qed.
Print Assumptions C46_wraps_refuted.

(* C47: no pipeline is created twice or destroyed without existing: whatever the history, at most one destruction. *)
Theorem C47_at_most_once : forall ops, exists l, alive_after KPipeline (calls ops) = Some l.
Proof. intro ops. apply alive_all. Qed.
Print Assumptions C47_at_most_once.

(* C47: and exactly one, once the passes are destroyed and a frame ended after the last reset, if the compute passes have
   one program per index and are reset after their first recording. *)
Theorem C47_exactly_once_partial : forall ops, sane new_pworld ops -> compute_ok new_pworld ops -> all_closed ops ->
  alive_after KPipeline (calls ops) = Some [].
Proof. intros ops S C [H1 H2]. apply (alive_none true); auto. Qed.
Print Assumptions C47_exactly_once_partial.
Example C47_example : sane new_pworld ex_ops /\ compute_ok new_pworld ex_ops /\ all_closed ex_ops /\
  length (filter (fun e => match e with PCreated KPipeline _ => true | _ => false end) (calls ex_ops)) = 9%nat.
Proof. split; [exact ex_sane|]. split; [exact ex_compute_ok|]. split; [exact ex_closed|]. vm_compute. reflexivity. Qed.

(* C47: in particular whatever the resets if there are only graphics passes. *)
Definition op_graphics (o : pop) : Prop := match o with ONew _ _ k _ _ _ _ _ => k <> Compute | _ => True end.
Lemma kinds_step w o : (forall id p, mfind id (pw_passes w) = Some p -> pp_kind p <> Compute) -> op_graphics o ->
  forall id p, mfind id (pw_passes (pstep w o)) = Some p -> pp_kind p <> Compute.
Proof.
  assert (R : forall w id i rp, (forall id p, mfind id (pw_passes w) = Some p -> pp_kind p <> Compute) ->
     forall id' p, mfind id' (pw_passes (fst (do_record w id i rp))) = Some p -> pp_kind p <> Compute).
  { intros w0 id i rp H id' p. unfold do_record. destruct (mfind id (pw_passes w0)) as [q|] eqn:E; [|apply H]. rewrite record_pre.
    pose proof (cl_pre _ _ (kind_closed (pp_kind q)) i rp (pw_driver w0) q (fun _ _ => I) eq_refl) as K. unfold kind_is in K.
    destruct (pre_record i rp (pw_driver w0) q) as [d1 p1]. unfold on_holder. destruct (ho_set _ _ i d1 (pp_holder p1)) as [d2 h2]. cbn [fst pw_passes].
    rewrite mfind_mput. destruct (N.eqb id' id); [|apply H]. intro X. injection X as <-. cbn [snd with_holder pp_kind] in *. rewrite K. apply (H id q E). }
  assert (Rs : forall l w, (forall id p, mfind id (pw_passes w) = Some p -> pp_kind p <> Compute) ->
     forall id' p, mfind id' (pw_passes (fst (do_records w l))) = Some p -> pp_kind p <> Compute).
  { induction l as [|[[id i] rp] l IH]; intros w0 H; [exact H|]. cbn [do_records]. specialize (R w0 id i rp H). destruct (do_record w0 id i rp) as [w1 b]. cbn [fst] in R.
    specialize (IH w1 R). destruct (do_records w1 l). exact IH. }
  intros H G. destruct o as [id gr kd n m a c cr|id i rp|id i pc|id|g l|g]; cbn [pstep].
  - destruct (mfind id (pw_passes w)); [exact H|]. cbn [pw_passes]. intros id' p. rewrite mfind_mput. destruct (N.eqb id' id); [intro X; injection X as <-; exact G|apply H].
  - apply R, H.
  - destruct (mfind id (pw_passes w)) as [q|] eqn:E; [|exact H]. pose proof (cl_passreset _ _ (kind_closed (pp_kind q)) i pc (pw_driver w) q eq_refl) as K. unfold kind_is in K.
    destruct (pass_reset i pc (pw_driver w) q) as [d' q']. cbn [pw_passes snd] in *. intros id' p. rewrite mfind_mput. destruct (N.eqb id' id); [|apply H].
    intro X. injection X as <-. rewrite K. apply (H id q E).
  - destruct (mfind id (pw_passes w)); [|exact H]. cbn [pw_passes]. intros id' pp. rewrite merase_find. destruct (N.eqb id' id); [discriminate|apply H].
  - unfold do_run. specialize (Rs l (on_driver (fun d => log d [PWaited g]) w) H). destruct (do_records _ l) as [w1 b]. exact Rs.
  - exact H.
Qed.
Lemma graphics_compute_ok ops : Forall op_graphics ops -> compute_ok new_pworld ops.
Proof.
  intro G.
  assert (X : forall w, (forall id p, mfind id (pw_passes w) = Some p -> pp_kind p <> Compute) -> compute_ok w ops); [|apply X; discriminate].
  induction ops as [|o r IH]; intros w H; [exact I|]. inversion G; subst. split; [|apply IH; [assumption|apply kinds_step; assumption]].
  destruct o as [id gr kd n m a c cr|id i rp|id i pc|id|g l|g]; try exact I.
  - cbn in *. destruct kd; try exact I. contradiction.
  - intros p E K. exfalso. apply (H id p E K).
Qed.
Theorem C47_graphics_exactly_once : forall ops, sane new_pworld ops -> Forall op_graphics ops -> all_closed ops ->
  alive_after KPipeline (calls ops) = Some [].
Proof. intros ops S G C. apply C47_exactly_once_partial; [exact S|apply graphics_compute_ok; exact G|exact C]. Qed.
Print Assumptions C47_graphics_exactly_once.
Example C47_graphics_example : exists ops, sane new_pworld ops /\ Forall op_graphics ops /\ all_closed ops /\
  length (filter (fun e => match e with PDestroyed KPipeline _ => true | _ => false end) (calls ops)) = 3%nat.
Proof.
  exists [ONew 1 1 Quad 1 1 ex_images ex_buffers None; OReset 1 0 None; ORun 1 [(1, 0%nat, Some 50)]; OReset 1 0 None; ORun 1 [(1, 0%nat, Some 51)]; ODestroy 1].
  split; [|split; [repeat constructor; discriminate|split; [vm_compute; split; reflexivity|vm_compute; reflexivity]]].
  sane_tac.
Qed.

(* C47 fails for a compute pass with one program recorded for two indices: the second pipeline overwrites the first. *)
Theorem C47_shared_slot_refuted : exists ops h, sane new_pworld ops /\ all_closed ops /\ alive_after KPipeline (calls ops) = Some [h].
Proof.
  exists [ONew 1 1 Compute 1 2 [] [] None; ORun 1 [(1, 0%nat, None)]; ORun 1 [(1, 1%nat, None)]; OWait 1; ODestroy 1], 4.
  split; [|split; [vm_compute; split; reflexivity|vm_compute; reflexivity]].
  sane_tac.
Qed.
Print Assumptions C47_shared_slot_refuted.
(* C47 fails for a compute pass reset before its first recording. *)
Theorem C47_reset_first_refuted : exists ops h, sane new_pworld ops /\ all_closed ops /\ alive_after KPipeline (calls ops) = Some [h].
Proof.
  exists [ONew 1 1 Compute 1 1 [] [] None; OReset 1 0 None; ORun 1 [(1, 0%nat, None)]; OWait 1; ODestroy 1], 1.
  split; [|split; [vm_compute; split; reflexivity|vm_compute; reflexivity]].
  sane_tac.
Qed.
Print Assumptions C47_reset_first_refuted.
(* C47 fails when no frame follows the last reset: the context does not empty its queue when it is destroyed. *)
Theorem C47_no_frame_refuted : exists ops h, sane new_pworld ops /\ compute_ok new_pworld ops /\ pw_passes (prun new_pworld ops) = [] /\
  alive_after KPipeline (calls ops) = Some [h].
Proof.
  exists [ONew 1 1 Quad 1 1 [] [] None; ORun 1 [(1, 0%nat, Some 50)]; OReset 1 0 None; OWait 1; ODestroy 1], 4.
  split; [|split; [|split; [vm_compute; reflexivity|vm_compute; reflexivity]]].
  - sane_tac.
  - split; [exact I|]. split; [exact I|]. split; [intros p E; vm_compute in E; injection E as <-; discriminate|]. repeat split.
Qed.
Print Assumptions C47_no_frame_refuted.

(* C62: pools, set layouts and pipeline layouts: never destroyed twice, and all destroyed once the passes are, whatever the history. *)
Theorem C62_descriptor_objects : forall ops k, k <> KPipeline ->
  exists l, alive_after k (calls ops) = Some l /\ (pw_passes (prun new_pworld ops) = [] -> l = []).
Proof.
  intros ops k Hk. destruct (alive_all k ops) as [l H]. exists l. split; [exact H|]. intro E.
  assert (X : alive_after k (calls ops) = Some []). { apply (alive_none true); [intros _ ?; contradiction|reflexivity|exact E|intro; contradiction]. }
  congruence.
Qed.
Print Assumptions C62_descriptor_objects.
Example C62_example : pw_passes (prun new_pworld ex_ops) = [] /\
  length (filter (fun e => match e with PDestroyed KPool _ => true | _ => false end) (calls ex_ops)) = 4%nat.
Proof. vm_compute. split; reflexivity. Qed.

(* C63: a descriptor set is written exactly at the bindings of its layout, with their types and counts. *)
Theorem C63_writes_match_layout : forall ops, sane new_pworld ops -> Forall op_counts_fit ops -> Forall op_declared ops ->
  forall pool layout set writes, In (PAllocated pool layout set) (calls ops) -> In (PUpdated set writes) (calls ops) ->
  same_bindings writes (layout_of (calls ops) layout).
Proof. intros ops S F D. destruct (WU_run ops new_pworld WU_new S F D) as (_ & (_ & _ & U) & _). exact U. Qed.
Print Assumptions C63_writes_match_layout.
Example C63_example : exists pool layout set writes, In (PAllocated pool layout set) (calls ex_ops) /\ In (PUpdated set writes) (calls ex_ops) /\
  length writes = 4%nat /\ sane new_pworld ex_ops /\ Forall op_counts_fit ex_ops /\ Forall op_declared ex_ops.
Proof.
  exists 3, 1, 5, (set_writes ex_images ex_buffers 0). split; [vm_compute; auto 20|]. split; [vm_compute; auto 20|].
  split; [reflexivity|]. split; [exact ex_sane|]. split; [exact ex_fit|exact ex_declared].
Qed.
(* C63: an image descriptor names the view of the pass index, in the layout in which the attachment was requested, with the sampler given for a
   sampled view and none for a storage view.  Every view used as a shader resource is written, once. *)
Theorem C63_descriptor_layout : forall m pass views binding wanted flag misc index separate,
  let a := declare_image m pass views binding wanted flag misc in
  (forall w, In w (image_write a index) ->
     dw_binding w = binding /\ (img_usage m = Sampled \/ img_usage m = Storage) /\
     dw_content w = DImage (match img_usage m with Sampled => Some misc | _ => None end) (v_id (attach_view a index)) (a_getImageLayout a separate) /\
     supports (a_getImageLayout a separate) (a_getAccessMask a)) /\
  (img_usage m = Sampled \/ img_usage m = Storage -> length (image_write a index) = 1%nat).
Proof.
  intros m pass views binding wanted flag misc index separate a. subst a. unfold image_write, isSampledView, isStorageView.
  destruct m; cbn [declare_image mk_image_attach ia_flags]; rewrite ?andb_false_r.
  all: split; [|intros [D|D]; first [discriminate D|reflexivity]].
  all: try (intros w H; repeat match type of H with context [if ?x then _ else _] => change x with false in H; cbv iota in H end; destruct H; fail).
  all: try (change (i_isSampled IF_Transfer) with false; change (i_isStorage IF_Transfer) with false; rewrite ?andb_false_r; intros w []; fail).
  all: intros w; vm_compute isImage; cbn [andb]; intro H; cbv in H; destruct H as [<-|[]]; cbn [img_usage dw_content dw_binding]; repeat split; auto; destruct separate; reflexivity.
Qed.
Print Assumptions C63_descriptor_layout.
Example C63_layout_example : image_write (declare_image addInOutStorageView 1 [ex_view 4] 9 0 0 0) 0 <> [].
Proof. discriminate. Qed.
(* C63: a buffer descriptor has the binding and the type of its declaration and designates the view given for a buffer view, and otherwise the given
   range of the buffer of the pass index: texel types with views, buffer types with ranges.  Every buffer used as a shader resource is written, once. *)
Theorem C63_buffer_descriptor : forall m pass buffers binding bview offset size wanted flag index,
  let a := declare_buffer m pass buffers binding bview offset size wanted flag in
  (forall w, In w (buffer_write a index) ->
     buffer_resource m = true /\ dw_binding w = binding /\ dw_count w = 1 /\ dw_type w = buffer_descriptor m /\
     dw_content w = (if with_buffer_view m then DTexel bview
                     else DBuffer (match buffers with [b] => b | _ => nth index buffers 0 end) offset size) /\
     ((exists v, dw_content w = DTexel v) <-> dw_type w = DT_UNIFORM_TEXEL \/ dw_type w = DT_STORAGE_TEXEL)) /\
  (buffer_resource m = true -> length (buffer_write a index) = 1%nat).
Proof.
  intros m pass buffers binding bview offset size wanted flag index a. subst a. unfold buffer_write, isStorageBuffer, isUniformBuffer.
  destruct m; cbn [declare_buffer mk_buffer_attach ba_flags at_binding ba_view ba_offset ba_size].
  all: split; [|intro D; first [discriminate D|reflexivity]].
  all: try (intros w H; change (hasFlag BF_Transfer BF_Storage) with false in H; change (hasFlag BF_Transfer BF_Uniform) with false in H; rewrite ?andb_false_r in H; destruct H; fail).
  all: intros w H; vm_compute isBuffer in H; cbn in H; try (destruct H; fail); destruct H as [<-|[]]; cbn [dw_content dw_binding dw_count dw_type]; repeat split.
  all: try (intros [v D]; first [discriminate D|auto]; fail).
  all: try (intros [D|D]; discriminate D).
  all: try (intros _; eexists; reflexivity).
  all: cbn [with_buffer_view]; destruct buffers as [|b0 [|b1 l]]; destruct index as [|[|k]]; reflexivity.
Qed.
Print Assumptions C63_buffer_descriptor.
Example C63_buffer_example :
  buffer_write (declare_buffer addInOutStorageBuffer 1 [40; 41] 3 0 16 32 no_pstate 0) 1 =
    [{| dw_binding := 3; dw_type := DT_STORAGE_BUFFER; dw_count := 1; dw_content := DBuffer 41 16 32 |}] /\
  buffer_write (declare_buffer addUniformBufferView 1 [40; 41] 3 77 16 32 no_pstate 0) 1 =
    [{| dw_binding := 3; dw_type := DT_UNIFORM_TEXEL; dw_count := 1; dw_content := DTexel 77 |}].
Proof. split; reflexivity. Qed.
(* C63: with several buffers, the given view is designated for each of them: the descriptors of all the indices are those of the same buffer. *)
Theorem C63_one_view_for_all_indices : exists m pass buffers binding bview offset size wanted flag i j,
  let a := declare_buffer m pass buffers binding bview offset size wanted flag in
  with_buffer_view m = true /\ attach_buffer a i <> attach_buffer a j /\ buffer_write a i <> [] /\ buffer_write a i = buffer_write a j.
Proof. exists addUniformBufferView, 1, [40; 41], 3, 77, 16, 32, no_pstate, 0, 0%nat, 1%nat. repeat split; discriminate. Qed.
Print Assumptions C63_one_view_for_all_indices.

(* C64: with one graph in the context, no pipeline is destroyed while a submission using it may be executing, and every
   submission uses living pipelines. *)
Theorem C64_one_graph_partial : forall g ops, sane new_pworld ops -> one_graph g new_pworld ops -> no_use_after_destroy (calls ops).
Proof. intros g ops S O. destruct (UA_run g ops new_pworld (UA_new g) S O) as (_ & U & _). apply safe_spec, U. Qed.
Print Assumptions C64_one_graph_partial.
Example C64_example : sane new_pworld ex_ops /\ one_graph 1 new_pworld ex_ops /\
  exists l1 bound l2, calls ex_ops = l1 ++ PSubmitted 1 bound :: l2 /\ length bound = 3%nat /\ In (PDestroyed KPipeline (hd 0 bound)) l2.
Proof.
  split; [exact ex_sane|]. split; [exact ex_one_graph|]. eexists (firstn 28 (calls ex_ops)), _, _. split; [vm_compute; reflexivity|]. split; [reflexivity|]. vm_compute. repeat (first [left; reflexivity|right]).
Qed.

(* C64 fails when two graphs share a context: the run of one empties the queue holding the pipeline that the other is executing. *)
Definition two_graphs : list pop :=
  [ONew 1 1 Compute 1 1 [] [] None; ONew 2 2 Compute 1 1 [] [] None; ORun 1 [(1, 0%nat, None)]; OReset 1 0 None; ORun 2 [(2, 0%nat, None)]].
Theorem C64_two_graphs_refuted : exists ops, sane new_pworld ops /\ compute_ok new_pworld ops /\
  (forall g l, In (ORun g l) ops -> forall x, In x l -> exists k n m a c cr, In (ONew (fst (fst x)) g k n m a c cr) ops) /\
  ~ no_use_after_destroy (calls ops).
Proof.
  exists two_graphs. split; [unfold two_graphs; sane_tac|]. split; [|split].
  - split; [reflexivity|]. split; [reflexivity|]. split; [exact I|]. split; [intros p E; vm_compute in E; injection E as <-; reflexivity|]. repeat split.
  - intros g l H x Hx. unfold two_graphs in H. cbn [In] in H. destruct H as [H|[H|[H|[H|[H|[]]]]]]; try discriminate; injection H as <- <-.
    + destruct Hx as [<-|[]]. exists Compute, 1%nat, 1%nat, [], [], None. left. reflexivity.
    + destruct Hx as [<-|[]]. exists Compute, 1%nat, 1%nat, [], [], None. right. left. reflexivity.
  - intros [H _]. set (n := length (calls two_graphs)).
    apply (H (firstn (n - 2) (calls two_graphs)) 4 [PSubmitted 2 [10]]); [vm_compute; reflexivity|].
    exists 1, [4]. split; [vm_compute; reflexivity|left; reflexivity].
Qed.
Print Assumptions C64_two_graphs_refuted.
(* C64 fails when recording a mesh again out of a run, with its last submission executing, makes its render pass again. *)
Theorem C64_mesh_rerecord_refuted : exists ops, sane new_pworld ops /\ compute_ok new_pworld ops /\
  (forall g l, In (ORun g l) ops -> g = 1) /\ ~ no_use_after_destroy (calls ops).
Proof.
  exists [ONew 1 1 Mesh 1 1 [] [] None; ORun 1 [(1, 0%nat, Some 50)]; ORecord 1 0 (Some 51)]. split; [sane_tac|]. split; [repeat split|]. split.
  - intros g l [H|[H|[H|[]]]]; try discriminate. injection H as <- <-. reflexivity.
  - set (ops := [_; _; _]). intros [H _]. apply (H (firstn 12 (calls ops)) 4 (skipn 13 (calls ops))); [vm_compute; reflexivity|].
    exists 1, [4]. split; [vm_compute; reflexivity|left; reflexivity].
Qed.
Print Assumptions C64_mesh_rerecord_refuted.
