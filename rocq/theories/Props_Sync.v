(* C73: memory dependencies between the uses of an image by two passes. *)
From Verif Require Import Spec_Sync Proof_Layout Proof_Attach Proof_Record Proof_Run2 Proof_Run3 Proof_Device Proof_Device4 Proof_Sync Proof_Sync2 Props_Record Props_Attach Props_Target.
Local Open Scope N_scope.

(* Uses made by transfer commands or by sampling in a graphics pass. *)
Definition transfer_or_sampled (m : image_method) (compute : bool) : Prop :=
  img_usage m = Transfer \/ (img_usage m = Sampled /\ compute = false).

Lemma bare_transition m pass views binding wanted misc : img_usage m = Transfer \/ img_usage m = Sampled ->
  let a := declare_image m pass views binding wanted 0 misc in has_transition a = true /\ isClearableImage a = false.
Proof. intros [H|H]; destruct m; try discriminate; split; reflexivity. Qed.
Lemma flag_irrelevant m pass views binding wanted flag misc : m <> addTransferInOutView -> declare_image m pass views binding wanted flag misc = declare_image m pass views binding wanted 0 misc.
Proof. intro H. destruct m; try reflexivity. exfalso. apply H. reflexivity. Qed.
Lemma read_layout m compute sep : transfer_or_sampled m compute -> m <> addTransferInOutView ->
  getStageMask (named_layout m sep) = use_stage (img_usage m) compute /\ getAccessMask (named_layout m sep) = announced m.
Proof. intros [H|[H ->]] N; destruct m; try discriminate; try (exfalso; apply N; reflexivity); split; reflexivity. Qed.
Lemma write_layout m compute sep : transfer_or_sampled m compute ->
  getStageMask (named_layout m sep) = use_stage (img_usage m) compute /\ contains (getAccessMask (named_layout m sep)) (written m).
Proof. intros [H|[H ->]]; destruct m; try discriminate; split; reflexivity. Qed.

(** C73, for transfers and sampling in graphics passes: between the bodies of a pass and of the next one that uses the same image,
    one writing and the other not, there is a barrier on the image, from the stage and the writes of the first use to the stage and
    the accesses of the second one. *)
Theorem C73_barrier_between_uses_partial : forall e g deps l0 p mid q l1 v ma pa va ba wa fa xa mb pb vb bb wb fb xb,
  let a := declare_image ma pa va ba wa fa xa in
  let b := declare_image mb pb vb bb wb fb xb in
  let passes := l0 ++ p :: mid ++ q :: l1 in
  view_ok v ->
  In a (rp_images p) -> same_region (attach_view a (rp_index p)) v ->
  In b (rp_images q) -> same_region (attach_view b (rp_index q)) v ->
  e_enabled e (rp_id p) = true -> e_enabled e (rp_id q) = true ->
  transfer_or_sampled ma (rp_compute p) -> transfer_or_sampled mb (rp_compute q) -> img_writes ma <> img_writes mb ->
  (ma = addTransferInOutView -> fa = 0) -> mb <> addTransferInOutView ->
  (* nothing in between uses the image, and the passes tell the truth about what they use *)
  (forall r, In r mid -> e_enabled e (rp_id r) = true -> forall w, In w (pass_views r) -> separate_views w v) ->
  (forall r, In r passes -> plain_pass v r) ->
  (* what was known of the image before has the stage and accesses of its layout *)
  plain_state (view_state (g_inputs g) v) -> plain_state (view_state (rc_images (g_final g)) v) ->
  plain_state (view_state (rc_images (start_context e deps passes)) v) ->
  exists before cp between cq tail,
    snd (fst (record_graph e g deps passes)) = before ++ snd (rp_record p cp (rp_index p)) ++ between ++ snd (rp_record q cq (rp_index q)) ++ tail /\
    exists c, In c between /\ orders v (use_stage (img_usage ma) (rp_compute p)) (written ma) (use_stage (img_usage mb) (rp_compute q)) (announced mb) c.
Proof.
  intros e g deps l0 p mid q l1 v ma pa va ba wa fa xa mb pb vb bb wb fb xb a b passes Hv Ha Ra Hb Rb Ep Eq Ua Ub Hw Fa Fb Hmid Hall Pi Pf Ps.
  assert (Ea : a = declare_image ma pa va ba wa 0 xa).
  { unfold a. destruct ma; try reflexivity. rewrite (Fa eq_refl). reflexivity. }
  assert (Eb : b = declare_image mb pb vb bb wb 0 xb) by (apply flag_irrelevant, Fb).
  assert (Va : img_usage ma = Transfer \/ img_usage ma = Sampled) by (destruct Ua as [?|[? _]]; auto).
  assert (Vb : img_usage mb = Transfer \/ img_usage mb = Sampled) by (destruct Ub as [?|[? _]]; auto).
  assert (Ta : has_transition a = true /\ isClearableImage a = false) by (rewrite Ea; apply bare_transition; exact Va).
  assert (Tb : has_transition b = true /\ isClearableImage b = false) by (rewrite Eb; apply bare_transition; exact Vb).
  assert (La : a_getImageLayout a (e_separate e) = named_layout ma (e_separate e)) by (apply C28_image_layout; destruct Va as [-> | ->]; discriminate).
  assert (Lb : a_getImageLayout b (e_separate e) = named_layout mb (e_separate e)) by (apply C28_image_layout; destruct Vb as [-> | ->]; discriminate).
  destruct (loop_between e g v Hv Pi Pf l0 p mid q l1 a b (start_context e deps passes)) as (before & cp & between & cq & tail & E & Hin);
    try assumption; try apply Ta; try apply Tb; try apply start_implicit.
  - rewrite La. destruct Va as [Q|Q]; unfold named_layout; rewrite Q; [destruct (img_writes ma)|]; discriminate.
  - rewrite Lb. destruct Vb as [Q|Q]; unfold named_layout; rewrite Q; [destruct (img_writes mb)|]; discriminate.
  - rewrite La, Lb. clear - Hw Va Vb. destruct ma, mb; destruct Va as [Q|Q]; try discriminate; destruct Vb as [Q'|Q']; try discriminate; try (exfalso; apply Hw; reflexivity).
  - exists before, cp, between, cq, tail. split.
    + unfold record_graph. destruct (record_loop e g passes (start_context e deps passes)) as [[c l] tr] eqn:El. cbn [fst snd]. fold passes in E. rewrite El in E. exact E.
    + eexists. split; [exact Hin|]. rewrite La, Lb. cbn [orders].
      destruct (write_layout ma (rp_compute p) (e_separate e) Ua) as [-> W]. destruct (read_layout mb (rp_compute q) (e_separate e) Ub Fb) as [-> ->].
      split; [reflexivity|]. split; [|repeat split; try (unfold contains; apply N.land_diag); exact W].
      intros layer mip H. apply adapt_in_range. destruct Rb as (_ & R1 & R2 & R3 & R4). unfold in_range in *. rewrite R1, R2, R3, R4. exact H.
Qed.
Print Assumptions C73_barrier_between_uses_partial.

(* A copy into an image, another pass on another image, a pass that draws with the first image, in a graph with a disabled pass. *)
Definition ex_img (id i : N) : view := vw id i (rng 0 1 0 1).
Definition ex_sync : list rpass :=
  [marker_pass 1 [declare_image addTransferOutputView 1 [ex_img 1 1] 0 0 0 0] [] false;
   marker_pass 2 [declare_image addTransferOutputView 2 [ex_img 2 2] 0 0 0 0] [] false;
   marker_pass 4 [declare_image addInOutStorageView 4 [ex_img 1 1] 0 0 0 0] [] false;
   marker_pass 3 [declare_image addSampledView 3 [ex_img 1 1] 0 0 0 0; declare_image addTransferInputView 3 [ex_img 2 2] 0 0 0 0] [] false].
Definition without_4 : env := {| e_separate := false; e_enabled := fun n => negb (N.eqb n 4); e_action := fun t c _ => (c, [CUser t]) |}.
Lemma ex_ok i j : view_ok (ex_img i j). Proof. split; [vm_compute; repeat split; discriminate|discriminate]. Qed.
Lemma ex_plain : forall r, In r ex_sync -> plain_pass (ex_img 1 1) r.
Proof.
  assert (L : forall n, leaves_view (ex_img 1 1) (fun c _ => (c, [CUser n]))) by (intros n c i; split; reflexivity).
  assert (S1 : same_region (ex_img 1 1) (ex_img 1 1)) by (repeat split). assert (S2 : separate_views (ex_img 2 2) (ex_img 1 1)) by (left; discriminate).
  assert (S3 : separate_views (ex_img 1 1) (ex_img 2 2)) by (left; discriminate).
  intros r Hr. repeat (destruct Hr as [<-|Hr]; [|]); try destruct Hr; (split; [|split; [|split; [|reflexivity]]]).
  all: try (intros f [[]|[[]| ->]]; apply L).
  all: try (intros w H; repeat (destruct H as [<-|H]; [split; [apply ex_ok|first [left; exact S1|right; exact S2]]|]); destruct H).
  all: repeat (constructor; [intros y H; repeat (destruct H as [<-|H]; [split; assumption|]); destruct H|]); constructor.
Qed.
Example C73_applies : exists before cp between cq tail,
  let p := marker_pass 1 [declare_image addTransferOutputView 1 [ex_img 1 1] 0 0 0 0] [] false in
  let q := marker_pass 3 [declare_image addSampledView 3 [ex_img 1 1] 0 0 0 0; declare_image addTransferInputView 3 [ex_img 2 2] 0 0 0 0] [] false in
  snd (fst (record_graph without_4 empty_graph [] ex_sync)) = before ++ snd (rp_record p cp 0) ++ between ++ snd (rp_record q cq 0) ++ tail /\
  exists c, In c between /\ orders (ex_img 1 1) S_TRANSFER A_TRANSFER_WRITE S_FRAGMENT A_SHADER_READ c.
Proof.
  pose proof (C73_barrier_between_uses_partial without_4 empty_graph [] [] (marker_pass 1 [declare_image addTransferOutputView 1 [ex_img 1 1] 0 0 0 0] [] false)
    [marker_pass 2 [declare_image addTransferOutputView 2 [ex_img 2 2] 0 0 0 0] [] false; marker_pass 4 [declare_image addInOutStorageView 4 [ex_img 1 1] 0 0 0 0] [] false]
    (marker_pass 3 [declare_image addSampledView 3 [ex_img 1 1] 0 0 0 0; declare_image addTransferInputView 3 [ex_img 2 2] 0 0 0 0] [] false) []
    (ex_img 1 1) addTransferOutputView 1 [ex_img 1 1] 0 0 0 0 addSampledView 3 [ex_img 1 1] 0 0 0 0) as H.
  cbv zeta in H. apply H; clear H; [apply ex_ok|left; reflexivity| |left; reflexivity| |reflexivity|reflexivity| | | | | | |exact ex_plain| | |].
  - repeat split.
  - repeat split.
  - left. reflexivity.
  - right. split; reflexivity.
  - discriminate.
  - reflexivity.
  - discriminate.
  - intros r [<-|[<-|[]]]; [|discriminate]. intros _ w [<-|[]]. left. discriminate.
  - left. reflexivity.
  - left. reflexivity.
  - left. vm_compute. reflexivity.
Qed.

(** C73 is false of the other uses. *)
(* No command at all orders the two uses. *)
Definition unordered (v : view) (s1 w1 s2 a2 : N) (l : list cmd) : Prop := forall c, In c l -> ~ orders v s1 w1 s2 a2 c.
Ltac no_order := let c := fresh in let H := fresh in intros c H; repeat (destruct H as [<-|H]; [cbn [orders]; unfold contains; intuition (try discriminate)|]); destruct H.
Definition two (m1 m2 : image_method) (compute : bool) : list rpass :=
  [marker_pass 1 [declare_image m1 1 [ex_img 1 1] 0 0 0 0] [] compute; marker_pass 2 [declare_image m2 2 [ex_img 1 1] 0 0 0 0] [] compute].
Definition two_cmds (m1 m2 : image_method) (compute : bool) : list cmd := snd (fst (record_graph all_on empty_graph [] (two m1 m2 compute))).
(* Two writes one after the other: nothing between them. *)
Theorem C73_write_after_write_refuted :
  unordered (ex_img 1 1) S_TRANSFER A_TRANSFER_WRITE S_TRANSFER A_TRANSFER_WRITE (two_cmds addTransferOutputView addTransferOutputView false) /\
  (forall m, In m [addOutputStorageView; addInOutStorageView] ->
     unordered (ex_img 1 1) S_COMPUTE A_SHADER_WRITE S_COMPUTE (announced m) (two_cmds addOutputStorageView m true)).
Proof.
  split; [|intros m [<-|[<-|[]]]]; unfold unordered; (let x := eval vm_compute in (two_cmds addTransferOutputView addTransferOutputView false) in idtac);
    match goal with |- forall c, In c ?l -> _ => let x := eval vm_compute in l in change l with x end; no_order.
Qed.
Print Assumptions C73_write_after_write_refuted.
(* A storage image written by a pass, then read as a storage image, sampled, or copied: its writes are never made available. *)
Theorem C73_storage_writes_refuted : forall m compute, In m [addInputStorageView; addSampledView; addTransferInputView] ->
  unordered (ex_img 1 1) (use_stage Storage compute) A_SHADER_WRITE (use_stage (img_usage m) compute) (announced m) (two_cmds addOutputStorageView m compute).
Proof.
  intros m compute Hm. unfold unordered. destruct compute; destruct Hm as [<-|[<-|[<-|[]]]];
    match goal with |- forall c, In c ?l -> _ => let x := eval vm_compute in l in change l with x end; no_order.
Qed.
Print Assumptions C73_storage_writes_refuted.
(* An image written by a copy, then sampled by a compute pass. *)
Theorem C73_sampled_in_compute_refuted :
  unordered (ex_img 1 1) S_TRANSFER A_TRANSFER_WRITE (use_stage Sampled true) A_SHADER_READ (two_cmds addTransferOutputView addSampledView true).
Proof.
  unfold unordered. match goal with |- forall c, In c ?l -> _ => let x := eval vm_compute in l in change l with x end; no_order.
Qed.
Print Assumptions C73_sampled_in_compute_refuted.
(* The colour target of a render pass, sampled by the next render pass: no barrier, and the dependencies of both render passes are
   about colour attachments only. *)
Definition second_rp : rpass :=
  {| rp_id := 2; rp_images := [declare_image addSampledView 2 [tv 1 1 37] 0 0 0 0; declare_image addOutputColourView 2 [tv 2 2 37] 0 0 0 7]; rp_buffers := [];
     rp_index := 0; rp_compute := false; rp_state := colour_output_state; rp_record := fun c _ => (c, []); rp_pre := []; rp_post := []; rp_implicit := [] |}.
Definition two_rp : list rpass :=
  [render_pass all_on empty_graph (colour_rp addOutputColourView) no_body (new_target (16, 16) 1);
   render_pass all_on empty_graph second_rp no_body (new_target (16, 16) 1)].
(* The dependencies of the render passes made when the passes are recorded. *)
Definition made_deps (p : rpass) (c : rctx) : list (pstate * pstate) :=
  flat_map (fun x => match x with TRenderPass _ info => ri_deps info | _ => [] end)
    (tg_log (fst (fst (tg_record all_on empty_graph p 0 no_body (new_target (16, 16) 1) (fst (run_all (record_image all_on empty_graph p) (rp_images p) c)))))).
Theorem C73_render_then_sample_refuted :
  let r := record_graph all_on empty_graph [] two_rp in
  let cmds := snd (fst r) in
  let made := flat_map (fun x : rpass * rctx * N => made_deps (fst (fst x)) (snd (fst x))) (snd r) in
  (* two render passes are begun, the first one on the image *)
  (exists infos1 infos2 l, begins cmds = [infos1; infos2] /\ In (CBeginRenderPass l) cmds /\ map (fun x : view * N * N * tops => fst (fst (fst x))) l = [tv 1 1 37]) /\
  unordered (tv 1 1 37) S_COLOR_OUTPUT A_COLOR_WRITE S_FRAGMENT A_SHADER_READ cmds /\
  length made = 4%nat /\ (forall d, In d made -> ~ dep_orders S_COLOR_OUTPUT A_COLOR_WRITE S_FRAGMENT A_SHADER_READ d).
Proof.
  cbv zeta. set (cmds := snd (fst (record_graph all_on empty_graph [] two_rp))). set (made := flat_map _ (snd (record_graph all_on empty_graph [] two_rp))).
  assert (Ec : exists x, cmds = x /\ x = ltac:(let y := eval vm_compute in (snd (fst (record_graph all_on empty_graph [] two_rp))) in exact y)) by (eexists; split; [reflexivity|vm_compute; reflexivity]).
  assert (Em : exists x, made = x /\ x = ltac:(let y := eval vm_compute in (flat_map (fun x : rpass * rctx * N => made_deps (fst (fst x)) (snd (fst x))) (snd (record_graph all_on empty_graph [] two_rp))) in exact y)) by (eexists; split; [reflexivity|vm_compute; reflexivity]).
  clearbody cmds made. destruct Ec as (x & -> & ->). destruct Em as (x & -> & ->). split; [|split; [|split]].
  - do 2 eexists. eexists. split; [vm_compute; reflexivity|]. split; [right; right; left; reflexivity|reflexivity].
  - no_order.
  - reflexivity.
  - intros d Hd. repeat (destruct Hd as [<-|Hd]; [unfold dep_orders, contains; cbn; intuition discriminate|]); destruct Hd.
Qed.
Print Assumptions C73_render_then_sample_refuted.
