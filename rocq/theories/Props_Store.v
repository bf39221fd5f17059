(* C101: what is drawn is stored. *)
From Verif Require Import Spec_Flow Proof_Layout Proof_Record Proof_Run2 Proof_Run3 Proof_Device Proof_Device2 Proof_Device3 Proof_Device4 Proof_Device6 Proof_Flow Proof_Flow2 Proof_Flow3 Props_Record Props_Device Props_Flow.
Local Open Scope N_scope.

(** C101: the declarations. A target that a pass writes is stored, and loaded too when the pass also reads it, in all its aspects
    when the method names them all. *)
Theorem C101_written_targets_stored_partial : forall a w, declared_written a w -> stores w (declared_ops a).
Proof.
  intros a w (m & pass & views & binding & wanted & flag & misc & -> & T & W & N).
  destruct m; try discriminate T; try discriminate W; cbn in N |- *; split; intro H; try reflexivity; try contradiction; exfalso; try (exact (H N)).
Qed.
Print Assumptions C101_written_targets_stored_partial.
Theorem C101_inout_targets_kept_partial : forall m pass views binding wanted flag misc w,
  target_method m = true -> img_writes m = true -> img_reads m = true -> names_aspects m w ->
  let a := declare_image m pass views binding wanted flag misc in isTarget a = true /\ isInput a = true /\ loads w (declared_ops a) /\ stores w (declared_ops a).
Proof.
  intros m pass views binding wanted flag misc w T W R N a.
  split; [|split; [|split; [|apply C101_written_targets_stored_partial; exists m, pass, views, binding, wanted, flag, misc; repeat split; assumption]]]; subst a;
    destruct m; try discriminate T; try discriminate W; try discriminate R; try reflexivity; cbn in N |- *; split; intro H; try reflexivity; try contradiction; exfalso; exact (H N).
Qed.
Print Assumptions C101_inout_targets_kept_partial.

(** C101, in a graph: what a render pass draws in a target is stored by its end, and nothing recorded from there to the body of a later
    pass discards or overwrites it, if the passes in between do not write it. *)
Theorem C101_drawn_reaches_reader_partial : forall e g deps F l0 p body t mid q l1 v a,
  let drawing := render_pass e g p body t in
  let passes := l0 ++ drawing :: mid ++ q :: l1 in
  regions F -> F v -> proper_targets e F p -> holds F p t ->
  In a (rp_images p) -> isTarget a = true -> same_region (attach_view a (rp_index p)) v ->
  (forall b, In b (rp_images p) -> isTarget b = true -> same_region (attach_view b (rp_index p)) v -> declared_written b (attach_view b (rp_index p))) ->
  quiet_env e -> (forall r, In r passes -> quiet_pass r) ->
  e_enabled e (rp_id p) = true -> e_enabled e (rp_id q) = true ->
  (forall f, In f (rp_post p) -> careful_at true g v (rp_index p) f) ->
  (forall r, In r mid -> e_enabled e (rp_id r) = true -> careful_pass true g v r) ->
  careful_before true g v q -> careful_actions true e g v (drawing :: mid ++ [q]) passes ->
  exists before infos drawn between cq tail,
    snd (fst (record_graph e g deps passes)) = before ++ CBeginRenderPass infos :: drawn ++ CEndRenderPass infos :: between ++ snd (rp_record q cq (rp_index q)) ++ tail /\
    In (attach_view a (rp_index p)) (map (fun x => fst (fst (fst x))) infos) /\
    Forall (preserves v) (CEndRenderPass infos :: between) /\ known_layout cq v <> L_UNDEFINED.
Proof.
  intros e g deps F l0 p body t mid q l1 v a drawing passes HF Fv Hp Ht Ia T S D Qe Q Ep Eq Hpost Hmid Hq Ha.
  destruct (C83_contents_reach_later_pass_partial e g deps l0 drawing mid q l1 v) as (before & cp & between & cq & tail & E & P & K); try assumption.
  { apply (F_ok F HF v Fv). }
  { apply (C83_render_target_known e g F p body t v a); assumption. }
  destruct (stored_render g F HF e v Fv p body t cp Hp Ht) as (infos & lb & E2 & St & Vs).
  { intros b Ib Tb Sb. apply C101_written_targets_stored_partial, D; assumption. }
  exists before, infos, lb, between, cq, tail. fold passes in E. change (rp_index drawing) with (rp_index p) in E. rewrite E. unfold drawing at 1. rewrite E2. split; [cbn [app]; rewrite <- !app_assoc; reflexivity|].
  split; [rewrite Vs; apply (in_map (fun a => attach_view a (rp_index p))), filter_In; auto|]. split; [constructor; assumption|exact K].
Qed.
Print Assumptions C101_drawn_reaches_reader_partial.

Example C101_applies :
  declared_written (declare_image addOutputColourView 1 [lv 1 1] 0 0 0 9) (lv 1 1) /\
  exists before infos drawn between cq tail,
    snd (fst (record_graph some_off empty_graph [] ([] ++ flow_draw :: flow_mid ++ flow_last :: []))) =
      before ++ CBeginRenderPass infos :: drawn ++ CEndRenderPass infos :: between ++ snd (rp_record flow_last cq 0%nat) ++ tail /\
    In (lv 1 1) (map (fun x => fst (fst (fst x))) infos) /\ Forall (preserves (lv 1 1)) (CEndRenderPass infos :: between).
Proof.
  assert (DW : declared_written (declare_image addOutputColourView 1 [lv 1 1] 0 0 0 9) (lv 1 1)).
  { exists addOutputColourView, 1, [lv 1 1], 0, 0, 0, 9. split; [reflexivity|]. split; [reflexivity|]. split; [reflexivity|]. intros [H|[H|[H|[H|[]]]]]; discriminate H. }
  split; [exact DW|]. destruct C83_applies as [(Qe & Q & Es & Hm & Hq & Ha) _].
  destruct (C101_drawn_reaches_reader_partial some_off empty_graph [] ex_regions [] (marker_pass 1 [declare_image addOutputColourView 1 [lv 1 1] 0 0 0 9] [] false)
    (fun c _ => (c, [CUser 1])) (new_target (16, 16) 1) flow_mid flow_last [] (lv 1 1) (declare_image addOutputColourView 1 [lv 1 1] 0 0 0 9))
    as (before & infos & drawn & between & cq & tail & E & V & P & _); try assumption; try reflexivity.
  { exact ex_regions_ok. } { left. reflexivity. }
  { split; [intros v [<-|[]]; left; reflexivity|]. split; [intros a [<-|[]]; left; reflexivity|]. split; [intros a [<-|[]]; discriminate|]. constructor; [intros y []|constructor]. }
  { split; [cbn; lia|]. split; [left; reflexivity|discriminate]. } { left. reflexivity. } { repeat split. }
  { intros b [<-|[]] _ _. exact DW. } { intros f []. }
  exists before, infos, drawn, between, cq, tail. split; [exact E|]. split; [exact V|exact P].
Qed.
(* A view of a depth or stencil image. *)
Definition fv (id i format : N) : view :=
  mkView id {| i_id := i; i_width := 16; i_height := 16; i_depth := 1; i_levels := 1; i_layers := 1; i_format := format |} 0 VT_2D_ARRAY format
    {| r_aspect := getAspectMask format; r_mip := 0; r_levels := 1; r_layer := 0; r_layers := 1 |} [].
Definition rendering (id : N) (images : list attach) : rpass := render_pass all_on empty_graph (marker_pass id images [] false) (fun c _ => (c, [CUser id])) (new_target (16, 16) 1).
(** C101 is false of a target that a pass only reads: whatever its method, its contents are not stored. *)
Theorem C101_input_targets_refuted : forall m pass views binding wanted flag misc w,
  target_method m = true -> img_writes m = false -> names_aspects m w \/ (img_usage m = DepthStencil /\ has_main w /\ has_stencil w) ->
  ~ stores w (declared_ops (declare_image m pass views binding wanted flag misc)).
Proof.
  intros m pass views binding wanted flag misc w T W N [S1 S2].
  destruct m; try discriminate T; try discriminate W; cbn in N, S1, S2; unfold has_main, has_stencil, SO_DONT_CARE, SO_STORE in *.
  all: destruct (N.eq_dec (v_format w) F_S8) as [E|E]; [|specialize (S1 E); discriminate S1].
  all: rewrite E in *; assert (H : In F_S8 [F_S8; F_D16_S8; F_D24_S8; F_D32_S8]) by (left; reflexivity); specialize (S2 H); discriminate S2.
Qed.
Print Assumptions C101_input_targets_refuted.
(* A pass writes the depth, a second one tests against it, a third one samples it: after the second pass there is nothing left to sample, and
   the second pass only declares the depth as an input. *)
Definition depth_only : list rpass :=
  [rendering 1 [declare_image addOutputDepthView 1 [fv 1 1 F_D32] 0 0 0 9];
   rendering 2 [declare_image addInputDepthView 2 [fv 1 1 F_D32] 0 0 0 9; declare_image addOutputColourView 2 [fv 2 2 37] 0 0 0 9];
   marker_pass 3 [declare_image addSampledView 3 [fv 1 1 F_D32] 0 0 0 0] [] true].
Theorem C101_depth_test_discards_refuted :
  let depth := fv 1 1 F_D32 in
  (* the second pass does not declare that it writes the depth *)
  (forall a, In a (rp_images (nth 1 depth_only (marker_pass 0 [] [] true))) -> same_region (attach_view a 0) depth -> isOutput a = false) /\
  exists before infos between tail,
    snd (fst (record_graph all_on empty_graph [] depth_only)) = before ++ [CUser 1; CEndRenderPass infos] ++ between ++ [CUser 3] ++ tail /\
    preserves depth (CEndRenderPass infos) /\ ~ Forall (preserves depth) between.
Proof.
  cbv zeta. split; [intros a [<-|[<-|[]]]; intros S; [vm_compute; reflexivity|destruct S as (S & _); discriminate S]|].
  set (l := snd (fst (record_graph all_on empty_graph [] depth_only))).
  exists (firstn 3 l), [(fv 1 1 F_D32, L_UNDEFINED, L_DEPTH_STENCIL_READ_ONLY, {| to_load := LO_CLEAR; to_store := SO_STORE; to_sload := LO_DONT_CARE; to_sstore := SO_DONT_CARE |})], (firstn 11 (skipn 5 l)), (skipn 17 l).
  split; [vm_compute; reflexivity|]. split.
  - intros w ini fin o [E|[]]. injection E as <- <- <- <-. right. split; [reflexivity|]. intros [H|[H|[H|[H|[]]]]]; discriminate H.
  - intro H. rewrite Forall_forall in H.
    specialize (H (CEndRenderPass [(fv 1 1 F_D32, L_DEPTH_STENCIL_READ_ONLY, L_SHADER_READ_ONLY, {| to_load := LO_LOAD; to_store := SO_DONT_CARE; to_sload := LO_DONT_CARE; to_sstore := SO_DONT_CARE |});
      (fv 2 2 37, L_UNDEFINED, L_COLOR_ATTACHMENT, {| to_load := LO_CLEAR; to_store := SO_STORE; to_sload := LO_DONT_CARE; to_sstore := SO_DONT_CARE |})])).
    match type of H with ?A -> _ => assert (I0 : A) by (vm_compute; tauto) end. specialize (H I0). destruct (H _ _ _ _ (or_introl eq_refl)) as [[X|X]|[X _]].
    + apply X. reflexivity.
    + apply (X 0 0); unfold in_range; cbn; lia.
    + assert (M : has_main (fv 1 1 F_D32)) by discriminate. specialize (X M). discriminate X.
Qed.
Print Assumptions C101_depth_test_discards_refuted.

(** C101 is false of the other aspect of a depth and stencil image: a pass that reads and writes its depth neither loads nor stores its
    stencil, and one that reads and writes its stencil neither loads nor stores its depth. *)
Theorem C101_other_aspect_refuted : forall w, In (v_format w) [F_D16_S8; F_D24_S8; F_D32_S8] -> forall pass views binding wanted flag misc,
  let depth := declared_ops (declare_image addInOutDepthView pass views binding wanted flag misc) in
  let stencil := declared_ops (declare_image addInOutStencilView pass views binding wanted flag misc) in
  ~ loads w depth /\ ~ stores w depth /\ ~ loads w stencil /\ ~ stores w stencil.
Proof.
  intros w H pass views binding wanted flag misc depth stencil.
  assert (S : has_stencil w) by (right; exact H). assert (M : has_main w) by (intro E; rewrite E in H; repeat (destruct H as [H|H]; [discriminate H|]); exact H).
  repeat split; intros [X Y]; try (specialize (X M); discriminate X); specialize (Y S); discriminate Y.
Qed.
Print Assumptions C101_other_aspect_refuted.
Example C101_other_aspect_applies : In (v_format (fv 1 1 F_D24_S8)) [F_D16_S8; F_D24_S8; F_D32_S8]. Proof. right. left. reflexivity. Qed.
