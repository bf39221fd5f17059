(* Quad and mesh passes: the render pass and the pipelines, one recording. *)
From Verif Require Import Proof_Device3 Proof_Pipe11 Proof_Target Proof_Target2 Proof_Target3 Spec_Draw.
From Coq Require Import Lia PeanoNat ZArith List.
Import ListNotations.
Local Open Scope N_scope.

(* what a recording does to the holder of the render pass *)
Definition colours (images : list attach) : list attach := filter (fun a => negb (depth_target a)) (filter isTarget images).
Definition coloured (images : list attach) (t : target) : Prop := forall r info, In (TRenderPass r info) (tg_log t) -> length (ri_colours info) = length (colours images).
Definition depth_position (images : list attach) : option N :=
  last (map (fun x => Some (fst x)) (filter (fun x => depth_target (snd x)) (positions 0 (filter isTarget images)))) None.
Definition shaped (n : nat) (images : list attach) (t : target) : Prop := forall r info, In (TRenderPass r info) (tg_log t) ->
  exists i, (i < n)%nat /\ Forall2 (describes i) (filter isTarget images) (ri_descs info) /\
    map fst (ri_colours info) = map fst (filter (fun x => negb (depth_target (snd x))) (positions 0 (filter isTarget images))) /\
    option_map fst (ri_depth info) = depth_position images.
Lemma last_depth sep (l : list (N * attach)) : (forall x, In x l -> depth_target (snd x) = true) ->
  let d := last (map (reference sep) l) (0, 0) in option_map fst (if N.eqb (snd d) 0 then None else Some d) = last (map (fun x => Some (fst x)) l) None.
Proof.
  intro H. destruct l as [|x l _] using rev_ind; [reflexivity|]. rewrite !map_app. cbn [map]. rewrite !last_last. unfold reference at 1 2. cbn [snd fst].
  assert (I1 : In x (l ++ [x])) by (apply in_or_app; right; left; reflexivity). pose proof (depth_layout (snd x) sep (H x I1)) as D. cbn zeta. unfold reference. cbn [snd fst]. apply N.eqb_neq in D. rewrite D. reflexivity.
Qed.
Lemma positions_filter (f : attach -> bool) l : forall n, length (filter (fun x => f (snd x)) (positions n l)) = length (filter f l).
Proof. induction l as [|a l IH]; intro n; [reflexivity|]. cbn [positions filter snd]. destruct (f a); cbn [length]; rewrite IH; reflexivity. Qed.
Record target_used (images : list attach) (t t1 t' : target) (i : nat) (m : bool) : Prop := {
  tu_rp : rd_renderPass (pass_data t' i) = rd_renderPass (pass_data t1 i);
  tu_other : forall j, j <> i -> pass_data t' j = pass_data t j;
  tu_size1 : tg_size t1 = tg_size t;
  tu_made : m = true -> rd_renderPass (pass_data t' i) = tg_nexth t /\ tg_blend t1 = map ia_misc (colours images);
  tu_kept : m = false -> rd_renderPass (pass_data t' i) = rd_renderPass (pass_data t i);
  tu_begun : begun_last (tg_log t') (rd_renderPass (pass_data t' i)) (rd_area (pass_data t' i));
  tu_next : tg_nexth t < tg_nexth t' \/ (m = false /\ tg_nexth t = tg_nexth t');
  tu_blend : coloured images t -> coloured images t';
  tu_shape : forall n, (i < n)%nat -> shaped n images t -> shaped n images t' }.
Lemma emit_data t l j : pass_data (tg_emit t l) j = pass_data t j. Proof. reflexivity. Qed.
Lemma target_use t u body : lives t -> (rp_index (us_pass u) < length (tg_passes t))%nat -> let i := rp_index (us_pass u) in
  let '(t1, _, m) := tg_initialise (us_env u) (us_graph u) (us_pass u) i t (us_ctx u) in
  let t' := fst (fst (tg_record (us_env u) (us_graph u) (us_pass u) i body t (us_ctx u))) in target_used (rp_images (us_pass u)) t t1 t' i m.
Proof.
  intros L Hi i. unfold tg_record. fold i in Hi.
  destruct (lives_init (us_env u) (us_graph u) (us_pass u) i t (us_ctx u) L Hi) as (L1 & N1 & R1).
  assert (A : let '(t1, _, m) := tg_initialise (us_env u) (us_graph u) (us_pass u) i t (us_ctx u) in
    (forall j, j <> i -> pass_data t1 j = pass_data t j) /\ tg_size t1 = tg_size t /\
    (m = true -> rd_renderPass (pass_data t1 i) = tg_nexth t /\ tg_blend t1 = map ia_misc (colours (rp_images (us_pass u)))) /\
    (m = false -> t1 = t) /\ (tg_nexth t < tg_nexth t1 \/ (m = false /\ tg_nexth t = tg_nexth t1)) /\ (coloured (rp_images (us_pass u)) t -> coloured (rp_images (us_pass u)) t1) /\
    (forall n, (i < n)%nat -> shaped n (rp_images (us_pass u)) t -> shaped n (rp_images (us_pass u)) t1)).
  { unfold tg_initialise. destruct (andb _ _); [repeat split; auto; discriminate|]. cbn zeta.
    destruct (filled_all (us_env u) (us_graph u) (us_pass u) i (us_ctx u)) as [Nx Ds En Cl Bl Co De].
    unfold pass_data. cbn [tg_passes tg_size tg_blend tg_nexth]. split; [|split; [reflexivity|split; [|split; [discriminate|split; [left; lia|split]]]]].
    - intros j Hj. rewrite Proof_Target3.nth_set_other by congruence. reflexivity.
    - intros _. rewrite Proof_Device3.nth_set_nth by exact Hi. split; [reflexivity|exact Bl].
    - intros C r info Hr. cbn [tg_log] in Hr. apply in_app_or in Hr. destruct Hr as [Hr|Hr]; [exact (C r info Hr)|]. apply in_app_or in Hr. destruct Hr as [Hr|[Hr|[]]].
      + unfold cleanup_events in Hr. apply in_app_or in Hr. destruct Hr as [Hr|Hr]; destruct (N.eqb _ 0); cbn in Hr; intuition discriminate.
      + injection Hr as _ <-. cbn [ri_colours]. rewrite Co, map_length, (positions_filter (fun a => negb (depth_target a))). reflexivity.
    - intros n Hn C r info Hr. cbn [tg_log] in Hr. apply in_app_or in Hr. destruct Hr as [Hr|Hr]; [exact (C r info Hr)|]. apply in_app_or in Hr. destruct Hr as [Hr|[Hr|[]]].
      + unfold cleanup_events in Hr. apply in_app_or in Hr. destruct Hr as [Hr|Hr]; destruct (N.eqb _ 0); cbn in Hr; intuition discriminate.
      + injection Hr as _ <-. cbn [ri_colours ri_descs ri_depth]. exists i. split; [exact Hn|]. split; [|split].
        * eapply Forall2_weak; [|exact Ds]. intros a b [H _]. exact H.
        * rewrite Co, map_map. apply map_ext. reflexivity.
        * rewrite De. apply last_depth. intros y Hy. apply filter_In in Hy. apply Hy. }
  destruct (tg_initialise (us_env u) (us_graph u) (us_pass u) i t (us_ctx u)) as [[t1 c1] m]. cbn [fst] in L1, N1, R1. destruct A as (A1 & A2 & A3 & A4 & A5 & A6 & A7).
  assert (Hi1 : (i < length (tg_passes t1))%nat) by (rewrite N1; exact Hi).
  assert (B : (forall j, j <> i -> pass_data (fst (tg_framebuffer i t1)) j = pass_data t1 j) /\ rd_renderPass (pass_data (fst (tg_framebuffer i t1)) i) = rd_renderPass (pass_data t1 i) /\
    tg_nexth t1 <= tg_nexth (fst (tg_framebuffer i t1)) /\ (coloured (rp_images (us_pass u)) t1 -> coloured (rp_images (us_pass u)) (fst (tg_framebuffer i t1))) /\
    (m = false -> tg_nexth (fst (tg_framebuffer i t1)) = tg_nexth t \/ tg_nexth t < tg_nexth (fst (tg_framebuffer i t1))) /\
    (forall n, shaped n (rp_images (us_pass u)) t1 -> shaped n (rp_images (us_pass u)) (fst (tg_framebuffer i t1)))).
  { unfold tg_framebuffer. destruct (N.eqb _ 0); cbn [fst].
    - unfold pass_data. cbn [tg_passes tg_nexth]. split; [|split; [rewrite Proof_Device3.nth_set_nth by exact Hi1; reflexivity|split; [lia|split; [|split]]]].
      + intros j Hj. rewrite Proof_Target3.nth_set_other by congruence. reflexivity.
      + intros C r info Hr. cbn [tg_log] in Hr. apply in_app_or in Hr. destruct Hr as [Hr|[Hr|[]]]; [exact (C r info Hr)|discriminate].
      + intros ->. rewrite (A4 eq_refl). right. lia.
      + intros n C r info Hr. cbn [tg_log] in Hr. apply in_app_or in Hr. destruct Hr as [Hr|[Hr|[]]]; [exact (C r info Hr)|discriminate].
    - split; [reflexivity|]. split; [reflexivity|]. split; [lia|]. split; [auto|]. split; [|auto]. intros ->. rewrite (A4 eq_refl). left. reflexivity. }
  unfold tg_begin. destruct (tg_framebuffer i t1) as [t2 fb]. cbn [fst snd] in B. destruct B as (B1 & B2 & B3 & B4 & B5 & B6).
  cbv beta iota zeta. destruct (body _ i) as [c2 l2]. unfold tg_end. cbn [fst].
  constructor; rewrite ?emit_data.
  - exact B2.
  - intros j Hj. rewrite !emit_data, B1, A1 by exact Hj. reflexivity.
  - exact A2.
  - intro E. destruct (A3 E) as [E1 E2]. split; [congruence|exact E2].
  - intro E. rewrite B2, (A4 E). reflexivity.
  - cbn [tg_emit tg_log]. unfold begun_last. eexists _, _, _. rewrite <- app_assoc. reflexivity.
  - cbn [tg_emit tg_nexth]. destruct m; [left; destruct A5 as [A5|[A5 _]]; [lia|discriminate]|]. destruct (B5 eq_refl) as [B|B]; [right; auto|left; exact B].
  - intro C. apply A6, B4 in C. intros r info Hr. cbn [tg_emit tg_log] in Hr. apply in_app_or in Hr. destruct Hr as [Hr|[Hr|[]]]; [|discriminate].
    apply in_app_or in Hr. destruct Hr as [Hr|[Hr|[]]]; [exact (C r info Hr)|discriminate].
  - intros n Hn C. apply (A7 n Hn), B6 in C. intros r info Hr. cbn [tg_emit tg_log] in Hr. apply in_app_or in Hr. destruct Hr as [Hr|[Hr|[]]]; [|discriminate].
    apply in_app_or in Hr. destruct Hr as [Hr|[Hr|[]]]; [exact (C r info Hr)|discriminate].
Qed.

(* what a recording does to the pipelines *)
Lemma create_idle i x : ho_pipeline (pp_holder (snd x)) i <> 0 -> doCreatePipeline i x = x.
Proof.
  destruct x as [d p]. cbn [snd]. intro H. unfold doCreatePipeline, on_holder, guarded_create. apply N.eqb_neq in H. rewrite H. destruct p; reflexivity.
Qed.
Lemma create_others i j x : slot_of (pp_holder (snd x)) j <> slot_of (pp_holder (snd x)) i -> 
  ho_pipeline (pp_holder (snd (doCreatePipeline i x))) j = ho_pipeline (pp_holder (snd x)) j.
Proof.
  destruct x as [d p]. cbn [snd]. intro H. unfold doCreatePipeline, on_holder, guarded_create. cbn [snd]. destruct (N.eqb _ 0); [|reflexivity].
  unfold ho_create, fresh. cbn [snd with_holder pp_holder]. unfold ho_pipeline.
  change (slot_of (with_pipelines (pp_holder p) (Model_Pipe.set_nth (slot_of (pp_holder p) i) (dr_next d) (ho_pipelines (pp_holder p)))) j) with (slot_of (pp_holder p) j).
  cbn [with_pipelines ho_pipelines]. rewrite Proof_Pipe.nth_set_nth. destruct (Nat.eqb_spec (slot_of (pp_holder p) i) (slot_of (pp_holder p) j)) as [E|E]; [congruence|reflexivity].
Qed.
Lemma init_others a b x j : ho_pipeline (pp_holder (snd (on_holder (ho_initialise a b) x))) j = ho_pipeline (pp_holder (snd x)) j.
Proof. destruct x as [d p]. unfold on_holder, ho_initialise. destruct (N.eqb _ 0); reflexivity. Qed.
Lemma reset_others i j x : slot_of (pp_holder (snd x)) j <> slot_of (pp_holder (snd x)) i -> 
  ho_pipeline (pp_holder (snd (on_holder (ho_reset i) x))) j = ho_pipeline (pp_holder (snd x)) j.
Proof.
  destruct x as [d p]. cbn [snd]. intro H. unfold on_holder, ho_reset. destruct (N.eqb _ 0); [reflexivity|]. cbn [snd with_holder pp_holder]. unfold ho_pipeline.
  change (slot_of (with_pipelines (pp_holder p) (Model_Pipe.set_nth (slot_of (pp_holder p) i) 0 (ho_pipelines (pp_holder p)))) j) with (slot_of (pp_holder p) j).
  cbn [with_pipelines ho_pipelines]. rewrite Proof_Pipe.nth_set_nth. destruct (Nat.eqb_spec (slot_of (pp_holder p) i) (slot_of (pp_holder p) j)) as [E|E]; [congruence|reflexivity].
Qed.
Lemma frame_slot p p' j : Proof_Pipe8.frame p p' -> slot_of (pp_holder p') j = slot_of (pp_holder p) j.
Proof. intros (S & _). apply still_slot0, S. Qed.
Lemma renderpass_others rp i j x : slot_of (pp_holder (snd x)) j <> slot_of (pp_holder (snd x)) i ->
  ho_pipeline (pp_holder (snd (resetRenderPass rp i x))) j = ho_pipeline (pp_holder (snd x)) j /\ Proof_Pipe8.frame (snd x) (snd (resetRenderPass rp i x)).
Proof.
  intro H. unfold resetRenderPass. pose proof (reset_others i j x H) as E. destruct (frame_on (ho_reset i) x (dims_reset i)) as (F & _).
  destruct (on_holder (ho_reset i) x) as [d1 p1]. cbn [snd] in *. destruct (docreate_frame i (d1, with_renderPass p1 rp)) as (F2 & _). cbn [snd] in F2.
  split; [|eapply frame_trans; [exact F|]; eapply frame_trans; [apply frame_rp|exact F2]].
  rewrite create_others; [exact E|]. cbn [snd with_renderPass pp_holder]. rewrite !(frame_slot _ _ _ F). exact H.
Qed.
Lemma quad_others i j rp d p : pp_kind p = Quad -> slot_of (pp_holder p) j <> slot_of (pp_holder p) i ->
  ho_pipeline (pp_holder (snd (fst (pass_record i rp d p)))) j = ho_pipeline (pp_holder p) j.
Proof.
  intros K H. rewrite record_pre. unfold pre_record. rewrite K.
  assert (A : forall y, Proof_Pipe8.frame p (snd y) -> ho_pipeline (pp_holder (snd y)) j = ho_pipeline (pp_holder p) j ->
     Proof_Pipe8.frame p (snd (doCreatePipeline i y)) /\ ho_pipeline (pp_holder (snd (doCreatePipeline i y))) j = ho_pipeline (pp_holder p) j).
  { intros y F E. destruct (docreate_frame i y) as (F2 & _). split; [eapply frame_trans; eassumption|]. rewrite create_others; [exact E|]. rewrite !(frame_slot _ _ _ F). exact H. }
  assert (B : let y := match rp with Some r => quad_initialise r i (d, p) | None => (d, p) end in Proof_Pipe8.frame p (snd y) /\ ho_pipeline (pp_holder (snd y)) j = ho_pipeline (pp_holder p) j).
  { destruct rp as [r|]; [|split; [apply frame_refl|reflexivity]]. cbn zeta. unfold quad_initialise. apply A.
    - destruct (negb (pp_prepared p)).
      + destruct (frame_on (ho_initialise (pp_images p) (pp_buffers p)) (d, p) (dims_initialise _ _)) as (F & _). destruct (on_holder (ho_initialise _ _) (d, p)) as [d1 p1]. eapply frame_trans; [exact F|apply frame_rp].
      + destruct (negb _); [|apply frame_refl]. apply (renderpass_others r i j (d, p) H).
    - destruct (negb (pp_prepared p)).
      + pose proof (init_others (pp_images p) (pp_buffers p) (d, p) j) as E. destruct (on_holder (ho_initialise _ _) (d, p)) as [d1 p1]. exact E.
      + destruct (negb _); [|reflexivity]. apply (renderpass_others r i j (d, p) H). }
  destruct B as [B1 B2]. destruct (A _ B1 B2) as [_ C]. destruct (doCreatePipeline i _) as [d1 p1]. cbn [snd] in C. unfold on_holder, ho_set. destruct (N.eqb _ 0); exact C.
Qed.
Lemma kept_record i d p : pp_kind p <> Compute -> ho_pipeline (pp_holder p) i <> 0 ->
  (forall j, ho_pipeline (pp_holder (snd (fst (pass_record i None d p)))) j = ho_pipeline (pp_holder p) j) /\ exists es, dr_log (fst (fst (pass_record i None d p))) = dr_log d ++ es /\ no_made es = true.
Proof.
  intros K H. rewrite record_pre. assert (E : pre_record i None d p = (d, p)) by (unfold pre_record; destruct (pp_kind p); [contradiction| |]; apply create_idle; exact H).
  rewrite E. unfold on_holder, ho_set. destruct (N.eqb _ 0); cbn [fst snd]; split; try reflexivity.
  - eexists. split; reflexivity.
  - exists []. split; [rewrite app_nil_r; reflexivity|reflexivity].
Qed.
(* a reset makes the pipeline anew *)
Lemma reset_young i c d p : pass_good d p -> (i < length (ho_sets (pp_holder p)))%nat -> pp_kind p <> Compute -> pp_renderPass p <> 0 ->
  let '(d', p') := pass_reset i c d p in ho_pipeline (pp_holder p') i = dr_next d /\ exists program l, made_as (dr_log d') (ho_pipeline (pp_holder p') i) = Some (program, pp_renderPass p, l).
Proof.
  intros (G & F & IN) Hi K R. unfold pass_reset. pose proof (good_reset i c d p G Hi) as GR. destruct (frame_on (ho_reset i) (d, p) (dims_reset i)) as (((_ & A1 & _) & _) & _ & A6).
  assert (Nx : dr_next (fst (on_holder (ho_reset i) (d, p))) = dr_next d) by (unfold on_holder, ho_reset; destruct (N.eqb _ 0); reflexivity).
  pose proof (frame_on (ho_reset i) (d, p) (dims_reset i)) as (((_ & _ & _ & _ & Dm) & _) & _).
  destruct (on_holder (ho_reset i) (d, p)) as [d1 p1]. cbn [fst snd] in *. destruct GR as [G1 Z1]. rewrite A1, A6.
  assert (X : let '(d', p') := doCreatePipeline i (d1, with_code p1 i c) in ho_pipeline (pp_holder p') i = dr_next d /\ exists program l, made_as (dr_log d') (ho_pipeline (pp_holder p') i) = Some (program, pp_renderPass p, l)).
  { unfold doCreatePipeline, on_holder, guarded_create. cbn [snd]. rewrite Z1. cbn [N.eqb]. unfold ho_create, fresh. cbn [with_holder pp_holder dr_log].
    set (q := with_code p1 i c) in *. pose proof (slot_in q i (g_shape _ G1)) as Sl. cbn [snd] in Sl.
    assert (Lq : length (ho_sets (pp_holder q)) = length (ho_sets (pp_holder p))).
    { assert (Q : ho_sets (pp_holder q) = ho_sets (pp_holder p1)) by (unfold q; destruct c; reflexivity). rewrite Q. unfold dims in Dm. injection Dm as _ _ Dm. exact Dm. }
    rewrite Lq in Sl. specialize (Sl Hi).
    assert (Pq : ho_pipeline (with_pipelines (pp_holder q) (Model_Pipe.set_nth (slot_of (pp_holder q) i) (dr_next d1) (ho_pipelines (pp_holder q)))) i = dr_next d1).
    { unfold ho_pipeline. change (slot_of (with_pipelines (pp_holder q) (Model_Pipe.set_nth (slot_of (pp_holder q) i) (dr_next d1) (ho_pipelines (pp_holder q)))) i) with (slot_of (pp_holder q) i).
      cbn [with_pipelines ho_pipelines]. rewrite Proof_Pipe.nth_set_nth, Nat.eqb_refl. apply Nat.ltb_lt in Sl. rewrite Sl. reflexivity. }
    rewrite Pq. split; [exact Nx|]. rewrite made_as_app.
    destruct (made_as (dr_log d1) (dr_next d1)) as [y|] eqn:Ey. { apply (proj2 (g_v _ G1)) in Ey. cbn [fst] in Ey. lia. }
    cbn [made_as]. rewrite N.eqb_refl. unfold pipeline_info. cbn [fst snd].
    assert (Kq : pp_kind q = pp_kind p /\ pp_renderPass q = pp_renderPass p) by (unfold q; destruct c; cbn; auto). destruct Kq as [Kq Rq].
    rewrite Kq, Rq. destruct (pp_kind p); [contradiction| |]; eexists _, _; reflexivity. }
  apply N.eqb_neq in R. destruct (pp_kind p); [contradiction| |]; rewrite R; exact X.
Qed.
