(* C95: render passes and framebuffers the device may be using. *)
From Verif Require Import Spec_Flight Proof_Target2 Proof_Flight Proof_Flight2 Props_Record Props_Target.
From Coq Require Import List PeanoNat Lia.
Import ListNotations.
Local Open Scope N_scope.

(** C95: whatever the recordings, runs, waits and re-recordings, a render pass or framebuffer named by a submitted command buffer exists
    when it is submitted, and is not destroyed before the fence of the graph was waited for -- provided the user waits for the graph
    before destroying it, and the passes that are re-recorded declare the attachments they render to as inputs too. *)
Theorem C95_not_destroyed_in_flight_partial : forall size n ops, settled ops true -> indices_fit n ops -> saved_contexts ops -> re_records_loaded ops ->
  flight_safe (fl_log (fly size n ops)).
Proof. exact fly_safe. Qed.
Print Assumptions C95_not_destroyed_in_flight_partial.
(* Without re-recording: for all attachments. *)
Theorem C95_runs_alone : forall size n ops, settled ops true -> indices_fit n ops -> (forall u, ~ In (FlReRecord u) ops) -> flight_safe (fl_log (fly size n ops)).
Proof.
  intros size n ops S I H. apply fly_safe; [exact S|exact I| |].
  - intros before u after E. exfalso. apply (H u). rewrite E. apply in_or_app. right. left. reflexivity.
  - intros u o v Hu. exfalso. exact (H u Hu).
Qed.
Print Assumptions C95_runs_alone.

(* examples: the target is sampled by the passes before, its layout is known *)
Definition sampled_before : rctx := set_view new_rctx (tv 1 1 37) (makeLayoutState L_SHADER_READ_ONLY).
Definition flight_ops (m : image_method) : list fop :=
  [FlRun true (first_use m new_rctx); FlRun true (first_use m sampled_before); FlReRecord (first_use m sampled_before); FlRun false (first_use m sampled_before); FlRecord true (first_use m new_rctx);
   FlRun true (first_use m sampled_before); FlWait; FlDestroy].
Lemma flight_settled m : settled (flight_ops m) true. Proof. cbn. tauto. Qed.
Lemma flight_fits m : indices_fit 1 (flight_ops m).
Proof. intros o u Ho Hu. cbn in Ho. repeat (destruct Ho as [<-|Ho]; [cbn in Hu; repeat (destruct Hu as [<-|Hu]; [cbn; lia|]); try contradiction|]). destruct Ho. Qed.
Lemma flight_saved m : saved_contexts (flight_ops m).
Proof.
  intros before u after E. unfold flight_ops in E.
  do 8 (destruct before as [|o before]; [try discriminate E; injection E as <- _; reflexivity|cbn [app] in E; injection E as <- E]). destruct before; discriminate E.
Qed.
Lemma flight_loaded : re_records_loaded (flight_ops addInOutColourView).
Proof.
  assert (L : loaded_targets (colour_rp addInOutColourView)).
  { split; [intros a [<-|[]]; split; [reflexivity|]; split; [|reflexivity]|].
    - split; [|vm_compute; discriminate]. unfold valid_range. vm_compute. intuition discriminate.
    - constructor; [intros x []|constructor]. }
  intros u o v _ Ho Hv _. cbn in Ho. repeat (destruct Ho as [<-|Ho]; [cbn in Hv; repeat (destruct Hv as [<-|Hv]; [exact L|]); try contradiction|]). destruct Ho.
Qed.
Example C95_applies : settled (flight_ops addInOutColourView) true /\ indices_fit 1 (flight_ops addInOutColourView) /\ saved_contexts (flight_ops addInOutColourView) /\
  re_records_loaded (flight_ops addInOutColourView) /\ in_flight (fl_log (fly (16, 16) 1 (firstn 3 (flight_ops addInOutColourView)))) = [3; 4] /\
  destroyed (target_events (fl_log (fly (16, 16) 1 (flight_ops addInOutColourView)))) = [2; 1; 4; 3].
Proof. split; [apply flight_settled|]. split; [apply flight_fits|]. split; [apply flight_saved|]. split; [exact flight_loaded|]. split; vm_compute; reflexivity. Qed.
Example C95_runs_alone_applies : let ops := firstn 2 (flight_ops addOutputColourView) in settled ops true /\ (forall u, ~ In (FlReRecord u) ops) /\ in_flight (fl_log (fly (16, 16) 1 ops)) <> [].
Proof. split; [cbn; tauto|]. split; [intros u [H|[H|[]]]; discriminate H|vm_compute; discriminate]. Qed.

(** False for an attachment that is only an output: re-recording a pass whose target the context knows makes the render pass anew, and
    destroys the one the device is using. *)
Theorem C95_re_recorded_output_refuted : exists ops, settled ops true /\ indices_fit 1 ops /\ saved_contexts ops /\ ~ flight_safe (fl_log (fly (16, 16) 1 ops)).
Proof.
  exists (flight_ops addOutputColourView). split; [apply flight_settled|]. split; [apply flight_fits|]. split; [apply flight_saved|]. intros [H _].
  set (log := fl_log (fly (16, 16) 1 (flight_ops addOutputColourView))) in *.
  specialize (H (firstn 16 log) false (TDestroyFramebuffer 4) (skipn 17 log) 4 ltac:(vm_compute; reflexivity) (or_introl eq_refl)). apply H. vm_compute. tauto.
Qed.
Print Assumptions C95_re_recorded_output_refuted.
(** In general: whatever happened before, running a pass with such an attachment whose layout is known, then re-recording it from the
    saved context, destroys a framebuffer the device may be using. *)
Theorem C95_re_recorded_output_always_refuted : forall size n images ops u a, ~ In FlDestroy ops -> indices_fit n (ops ++ [FlRun true u]) ->
  (forall o v, In o (ops ++ [FlRun true u]) -> In v (uses_of o) -> rp_images (us_pass v) = images) ->
  In a (targets (us_pass u)) -> isInput a = false -> known_layout (us_ctx u) (resolveView (attach_view a (index_of u)) (index_of u)) <> L_UNDEFINED ->
  ~ flight_safe (fl_log (fly size n (ops ++ [FlRun true u; FlReRecord u]))).
Proof. exact output_in_flight. Qed.
Print Assumptions C95_re_recorded_output_always_refuted.
Example C95_always_applies : exists u a, indices_fit 1 [FlRun true u] /\ In a (targets (us_pass u)) /\ isInput a = false /\ known_layout (us_ctx u) (resolveView (attach_view a (index_of u)) (index_of u)) = L_SHADER_READ_ONLY.
Proof.
  exists (first_use addOutputColourView sampled_before). eexists. split; [intros o u [<-|[]] [<-|[]]; cbn; lia|]. split; [left; reflexivity|]. split; vm_compute; reflexivity.
Qed.
(* Destroying a graph that was run and not waited for. *)
Theorem C95_not_waited_refuted : exists ops, indices_fit 1 ops /\ (forall u, ~ In (FlReRecord u) ops) /\ ~ flight_safe (fl_log (fly (16, 16) 1 ops)).
Proof.
  exists [FlRun true (first_use addInOutColourView new_rctx); FlDestroy]. split; [|split].
  - intros o u [<-|[<-|[]]] Hu; cbn in Hu; [destruct Hu as [<-|[]]; cbn; lia|destruct Hu].
  - intros u [H|[H|[]]]; discriminate H.
  - intros [H _]. set (log := fl_log (fly (16, 16) 1 [FlRun true (first_use addInOutColourView new_rctx); FlDestroy])) in *.
    specialize (H (firstn 7 log) false (TDestroyFramebuffer 2) (skipn 8 log) 2 ltac:(vm_compute; reflexivity) (or_introl eq_refl)). apply H. vm_compute. tauto.
Qed.
Print Assumptions C95_not_waited_refuted.
