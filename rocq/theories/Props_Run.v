(* C33, C34, C37, C50, C57, C58: submissions and recording of a runnable graph. *)
From Verif Require Import Spec_Run Proof_Layout Proof_Record Proof_Run Proof_Run2 Proof_Run3.
From Coq Require Import Lia PeanoNat.
Local Open Scope N_scope.

(** C33. *)
Theorem C33_wait_list : forall toWait sems masks,
  convert toWait = (sems, masks) ->
  ~ In 0 sems /\ NoDup sems /\ length sems = length masks /\
  (forall s, s <> 0 -> (In s sems <-> exists m, In (s, m) toWait)) /\
  (forall i s m, nth_error sems i = Some s -> nth_error masks i = Some m -> first_mask s toWait = Some m) /\
  (forall i j s t, (i < j)%nat -> nth_error sems i = Some s -> nth_error sems j = Some t ->
     exists a b, first_position s toWait = Some a /\ first_position t toWait = Some b /\ (a < b)%nat).
Proof.
  intros toWait sems masks E. pose proof (convert_inv toWait) as [A B C D F G]. rewrite E in *. cbn [fst snd] in *. auto 10.
Qed.
Print Assumptions C33_wait_list.
Example C33_wait_list_applies : convert [(5, 1); (0, 2); (7, 4); (5, 8); (9, 16)] = ([5; 7; 9], [1; 4; 16]).
Proof. reflexivity. Qed.

(* run( SemaphoreWait ) waits for nothing when the semaphore is null. *)
Theorem C33_single_wait : forall s m,
  convert (wait_single (s, m)) = if N.eqb s 0 then ([], []) else ([s], [m]).
Proof. intros s m. unfold wait_single. simpl. destruct (N.eqb s 0) eqn:E; [reflexivity|]. unfold convert, convert_one. simpl. rewrite E. reflexivity. Qed.
Print Assumptions C33_single_wait.

(** C34: false in general.  A wait that times out counts as a completed wait. *)
Theorem C34_timeout_counts_as_wait_refuted : exists l,
  possible Signalled (snd (fence_calls (new_fence true) l)) /\
  ~ resets_safe false (snd (fence_calls (new_fence true) l)).
Proof.
  exists [FReset; FSubmit; FWait false; FReset]. simpl. split.
  - repeat split; discriminate.
  - intros [_ [H _]]. discriminate.
Qed.
Print Assumptions C34_timeout_counts_as_wait_refuted.

(** C34, when no wait times out (the library itself always waits without timeout). *)
Theorem C34_reset_never_pending_partial : forall l,
  (forall b, In (FWait b) l -> b = true) ->
  possible Signalled (snd (fence_calls (new_fence true) l)) ->
  resets_safe false (snd (fence_calls (new_fence true) l)).
Proof. intros l Hl Hp. apply (fence_calls_safe l (new_fence true) Signalled); auto. Qed.
Print Assumptions C34_reset_never_pending_partial.
Example C34_partial_applies :
  let l := [FReset; FSubmit; FReset; FSubmit; FWait true; FReset; FSubmit] in
  (forall b, In (FWait b) l -> b = true) /\ possible Signalled (snd (fence_calls (new_fence true) l)) /\
  snd (fence_calls (new_fence true) l) =
    [DWait true; DResetFence; DSubmit; DWait true; DResetFence; DSubmit; DWait true; DResetFence; DSubmit].
Proof.
  cbv zeta. split; [|split; [|reflexivity]].
  - intros b H. simpl in H. repeat (destruct H as [H|H]; [congruence|]). contradiction.
  - simpl. repeat split; discriminate.
Qed.

(* Two resets without submission between: the second one waits for a fence nobody signals. *)
Theorem C34_second_reset_blocks_refuted : exists l,
  l = [FReset; FReset] /\ dev_run dev_start (snd (fence_calls (new_fence true) l)) = None.
Proof. exists [FReset; FReset]. split; reflexivity. Qed.
Print Assumptions C34_second_reset_blocks_refuted.

(** C57: with at least one pass, any history of record and run, interrupted anywhere by an exception of a
    callback, and of waits on the fence of the graph. *)
Theorem C57_submissions_valid_partial : forall passes l,
  (forall c, In c l -> c <> GResetFence) ->
  exists d, dev_run dev_start (snd (graph_calls (new_fence true) (S passes) l)) = Some d.
Proof. intros passes l Hl. exact (graph_calls_ok passes l (new_fence true) dev_start graph_starts_ok Hl). Qed.
Print Assumptions C57_submissions_valid_partial.
Example C57_submissions_valid_applies :
  let l := [GRun false; GWait false; GRecord true; GRun true; GRun false; GWait true; GRecord false; GRun false] in
  (forall c, In c l -> c <> GResetFence) /\
  dev_run dev_start (snd (graph_calls (new_fence true) 1 l)) = Some {| d_fence := InFlight; d_cb := PendingCB |}.
Proof.
  cbv zeta. split; [|reflexivity]. intros c H. simpl in H. repeat (destruct H as [<-|H]; [discriminate|]). contradiction.
Qed.

(** C57 for a graph without pass: false, the one time submit command buffer is submitted again. *)
Theorem C57_empty_graph_refuted :
  dev_run dev_start (snd (graph_calls (new_fence true) 0 [GRun false; GRun false])) = None.
Proof. reflexivity. Qed.
Print Assumptions C57_empty_graph_refuted.
(* A reset of the fence of the graph by the user blocks the next recording for ever. *)
Theorem C57_user_reset_blocks_refuted : forall passes,
  dev_run dev_start (snd (graph_calls (new_fence true) (S passes) [GResetFence; GRecord false])) = None.
Proof. reflexivity. Qed.
Print Assumptions C57_user_reset_blocks_refuted.

(* ---- examples of passes ---- *)
Definition img (i : N) : image := {| i_id := i; i_width := 16; i_height := 16; i_depth := 1; i_levels := 5; i_layers := 6; i_format := 37 |}.
Definition lvl (m : N) : srange := {| r_aspect := ASPECT_COLOR; r_mip := m; r_levels := 1; r_layer := 0; r_layers := 1 |}.
Definition vw (id i m : N) : view := mkView id (img i) 0 VT_2D 37 (lvl m) [].
Definition target (v : view) : attach := declare_image addOutputColourView 0 [v] 0 0 0 0.
Definition sampled (v : view) : attach := declare_image addSampledView 0 [v] 0 0 0 0.
Definition copied (v : view) : attach := declare_image addTransferOutputView 0 [v] 0 0 0 0.
Definition st (n : N) : pstate := {| ps_access := n; ps_stage := n |}.
Definition pass (id : N) (images : list attach) : rpass :=
  {| rp_id := id; rp_images := images; rp_buffers := []; rp_index := 0; rp_compute := false; rp_state := st (2 ^ id);
     rp_record := fun c _ => (c, [CUser id]); rp_pre := []; rp_post := []; rp_implicit := [] |}.
Definition on (l : list N) : env :=
  {| e_separate := false; e_enabled := fun k => existsb (N.eqb k) l; e_action := fun t c _ => (c, [CUser t]) |}.
Definition nograph : rgraph := {| g_inputs := []; g_outputs := []; g_final := new_rctx |}.
Definition ctx_at (tr : list (rpass * rctx * N)) (i : nat) : rctx :=
  match nth_error tr i with Some (_, c, _) => c | None => new_rctx end.

(** C37: false in general, three reasons. *)
(* A pass sharing two images with the next one is told the next layout of the first image only. *)
Definition two_images : list rpass := [pass 1 [target (vw 1 1 0); target (vw 2 2 0)]; pass 2 [sampled (vw 1 1 0); sampled (vw 2 2 0)]].
Theorem C37_second_image_refuted : exists e g passes p q v,
  let c := ctx_at (trace_of e g [] passes) 0 in
  nth_error passes 0 = Some p /\ In v (map fst (declared (e_separate e) p)) /\
  first_consumer e (skipn 1 passes) v q /\ needs_in (e_separate e) q v L_SHADER_READ_ONLY /\
  ls_layout (getNextLayoutState e g c p v) = L_COLOR_ATTACHMENT.
Proof.
  exists (on [1; 2]), nograph, two_images, (pass 1 [target (vw 1 1 0); target (vw 2 2 0)]), (pass 2 [sampled (vw 1 1 0); sampled (vw 2 2 0)]), (vw 2 2 0).
  cbv zeta. split; [reflexivity|]. split; [simpl; auto|]. split; [|split].
  - exists [], []. split; [reflexivity|]. split; [reflexivity|]. split; [|intros b []]. exists 0, 0. eexists. split; reflexivity.
  - intros layer mip s _. unfold needs. cbn [declared pass rp_images flat_map attach_views]. simpl.
    destruct (covers (vw 2 2 0) 2 layer mip); destruct (covers (vw 1 1 0) 2 layer mip); intros [= <-]; reflexivity.
  - vm_compute. reflexivity.
Qed.
Print Assumptions C37_second_image_refuted.

(* Worse, the layout of a later pass is given. *)
Definition three_passes : list rpass := two_images ++ [pass 3 [copied (vw 2 2 0)]].
Theorem C37_later_consumer_refuted : exists e g passes p q v,
  let c := ctx_at (trace_of e g [] passes) 0 in
  nth_error passes 0 = Some p /\ In v (map fst (declared (e_separate e) p)) /\
  first_consumer e (skipn 1 passes) v q /\ needs_in (e_separate e) q v L_SHADER_READ_ONLY /\
  ls_layout (getNextLayoutState e g c p v) = L_TRANSFER_DST.
Proof.
  exists (on [1; 2; 3]), nograph, three_passes, (pass 1 [target (vw 1 1 0); target (vw 2 2 0)]), (pass 2 [sampled (vw 1 1 0); sampled (vw 2 2 0)]), (vw 2 2 0).
  cbv zeta. split; [reflexivity|]. split; [simpl; auto|]. split; [|split].
  - exists [], [pass 3 [copied (vw 2 2 0)]]. split; [reflexivity|]. split; [reflexivity|]. split; [|intros b []]. exists 0, 0. eexists. split; reflexivity.
  - intros layer mip s _. unfold needs. cbn [declared pass rp_images flat_map attach_views]. simpl.
    destruct (covers (vw 2 2 0) 2 layer mip); destruct (covers (vw 1 1 0) 2 layer mip); intros [= <-]; reflexivity.
  - vm_compute. reflexivity.
Qed.
Print Assumptions C37_later_consumer_refuted.

(* A pass using another mip level of the same layer hides the consumer. *)
Definition other_level : list rpass := [pass 1 [target (vw 1 1 0)]; pass 2 [sampled (vw 2 1 1)]; pass 3 [sampled (vw 1 1 0)]].
Theorem C37_other_level_refuted : exists e g passes p q v,
  let c := ctx_at (trace_of e g [] passes) 0 in
  nth_error passes 0 = Some p /\ In v (map fst (declared (e_separate e) p)) /\
  first_consumer e (skipn 1 passes) v q /\ needs_in (e_separate e) q v L_SHADER_READ_ONLY /\
  ls_layout (getNextLayoutState e g c p v) = L_COLOR_ATTACHMENT.
Proof.
  exists (on [1; 2; 3]), nograph, other_level, (pass 1 [target (vw 1 1 0)]), (pass 3 [sampled (vw 1 1 0)]), (vw 1 1 0).
  cbv zeta. split; [reflexivity|]. split; [simpl; auto|]. split; [|split].
  - exists [pass 2 [sampled (vw 2 1 1)]], []. split; [reflexivity|]. split; [reflexivity|]. split.
    + exists 0, 0. eexists. split; reflexivity.
    + intros b [<-|[]] _ (layer & mip & s & Hc & Hn). unfold needs in Hn. simpl in Hn.
      apply (covers_range (vw 1 1 0)) in Hc. destruct (covers (vw 2 1 1) 1 layer mip) eqn:E; [|discriminate].
      apply (covers_range (vw 2 1 1)) in E. unfold in_range, vrange in *. cbn in *. lia.
  - intros layer mip s _. unfold needs. simpl. destruct (covers (vw 1 1 0) 1 layer mip); intros [= <-]; reflexivity.
  - vm_compute. reflexivity.
Qed.
Print Assumptions C37_other_level_refuted.

(** C37: the next consumer, when it is the first enabled pass sharing a layer of the image, and shares no
    image with a smaller identifier with the pass. *)
Theorem C37_next_consumer_partial : forall e g deps passes i p c idx v s0 before q after L,
  let sep := e_separate e in
  (forall b, In b passes -> valid_views sep b) ->
  nth_error (trace_of e g deps passes) i = Some (p, c, idx) ->
  In (v, s0) (declared sep p) ->
  skipn (S i) passes = before ++ q :: after ->
  (forall b, In b before -> e_enabled e (rp_id b) = true -> ~ share_layer sep p b (i_id (v_image v))) ->
  e_enabled e (rp_id q) = true ->
  (forall k, k < i_id (v_image v) -> ~ share_layer sep p q k) ->
  needs_part sep q v -> needs_in sep q v L -> L <> L_UNDEFINED ->
  ls_layout (getNextLayoutState e g c p v) = L.
Proof.
  intros e g deps passes i p c idx v s0 before q after L sep Hv Ht Hin Hsk Hb Hq Hlow Hpart Hneeds HL.
  unfold trace_of, record_graph in Ht.
  pose proof (trace_entry e g passes (start_context e deps passes) i p c idx) as T.
  destruct (record_loop e g passes (start_context e deps passes)) as [[c3 l3] tr]. cbn [snd] in *.
  destruct (T Ht) as (Hp & _ & c0 & ->). rewrite Hsk.
  assert (Hsub : forall b, In b (before ++ q :: after) -> In b passes).
  { intros b Hb'. rewrite <- Hsk in Hb'. rewrite <- (firstn_skipn (S i) passes). apply in_or_app. right. exact Hb'. }
  apply next_consumer with (s0 := s0); auto.
  - apply Hv. eapply nth_error_In. exact Hp.
  - apply Hv. apply Hsub. apply in_or_app. right. left. reflexivity.
  - intros b Hb'. apply Hv. apply Hsub. apply in_or_app. left. exact Hb'.
Qed.
Print Assumptions C37_next_consumer_partial.

(* Without any later enabled pass sharing a layer of the image: the graph output, else the layout of the pass. *)
Theorem C37_no_consumer : forall e g deps passes i p c idx v s0 L,
  let sep := e_separate e in
  let out := ls_layout (getLayoutState (g_outputs g) (v_image v) (v_type v) (v_range v)) in
  (forall b, In b passes -> valid_views sep b) ->
  nth_error (trace_of e g deps passes) i = Some (p, c, idx) ->
  In (v, s0) (declared sep p) ->
  (forall b, In b (skipn (S i) passes) -> e_enabled e (rp_id b) = true -> ~ share_layer sep p b (i_id (v_image v))) ->
  needs_in sep p v L ->
  ls_layout (getNextLayoutState e g c p v) = if N.eqb out L_UNDEFINED then L else out.
Proof.
  intros e g deps passes i p c idx v s0 L sep out Hv Ht Hin Hno Hneeds.
  unfold trace_of, record_graph in Ht.
  pose proof (trace_entry e g passes (start_context e deps passes) i p c idx) as T.
  destruct (record_loop e g passes (start_context e deps passes)) as [[c3 l3] tr]. cbn [snd] in *.
  destruct (T Ht) as (Hp & _ & c0 & ->).
  apply no_consumer with (s0 := s0); auto.
  - apply Hv. eapply nth_error_In. exact Hp.
  - intros b Hb. apply Hv. rewrite <- (firstn_skipn (S i) passes). apply in_or_app. right. exact Hb.
Qed.
Print Assumptions C37_no_consumer.

(* In all cases the layout is one a later enabled pass, the graph outputs or the pass itself asks for. *)
Theorem C37_sound : forall e g deps passes i p c idx v s0,
  let sep := e_separate e in
  (forall b, In b passes -> valid_views sep b) ->
  nth_error (trace_of e g deps passes) i = Some (p, c, idx) ->
  In (v, s0) (declared sep p) ->
  let r := getNextLayoutState e g c p v in
  (exists q layer mip s, In q (skipn (S i) passes) /\ e_enabled e (rp_id q) = true /\
     covers v (i_id (v_image v)) layer mip = true /\ needs sep q (i_id (v_image v)) layer mip = Some s /\ ls_layout s = ls_layout r) \/
  r = getLayoutState (g_outputs g) (v_image v) (v_type v) (v_range v) \/
  r = getLayoutState (pass_layouts sep p) (v_image v) (v_type v) (v_range v).
Proof.
  intros e g deps passes i p c idx v s0 sep Hv Ht Hin r.
  unfold trace_of, record_graph in Ht.
  pose proof (trace_entry e g passes (start_context e deps passes) i p c idx) as T.
  destruct (record_loop e g passes (start_context e deps passes)) as [[c3 l3] tr]. cbn [snd] in *.
  destruct (T Ht) as (Hp & _ & c0 & Hc). unfold r. subst c.
  apply next_layout_sound with (s0 := s0) (c0 := c0); auto.
  - apply Hv. eapply nth_error_In. exact Hp.
  - intros b Hb. apply Hv. rewrite <- (firstn_skipn (S i) passes). apply in_or_app. right. exact Hb.
Qed.
Print Assumptions C37_sound.

(* The hypotheses are met: one image written, sampled two passes later, the pass between being disabled. *)
Definition chain : list rpass := [pass 1 [target (vw 1 1 0)]; pass 2 [copied (vw 1 1 0)]; pass 3 [sampled (vw 1 1 0)]].
Example C37_partial_applies :
  let e := on [1; 3] in let p := pass 1 [target (vw 1 1 0)] in let q := pass 3 [sampled (vw 1 1 0)] in let v := vw 1 1 0 in
  (forall b, In b chain -> valid_views (e_separate e) b) /\
  (exists c idx, nth_error (trace_of e nograph [] chain) 0 = Some (p, c, idx)) /\
  (exists s0, In (v, s0) (declared (e_separate e) p)) /\
  (exists before, skipn 1 chain = before ++ q :: [] /\
     forall b, In b before -> e_enabled e (rp_id b) = true -> ~ share_layer (e_separate e) p b (i_id (v_image v))) /\
  (forall k, k < i_id (v_image v) -> ~ share_layer (e_separate e) p q k) /\
  needs_part (e_separate e) q v /\ needs_in (e_separate e) q v L_SHADER_READ_ONLY /\
  ls_layout (getNextLayoutState e nograph (ctx_at (trace_of e nograph [] chain) 0) p v) = L_SHADER_READ_ONLY.
Proof.
  cbv zeta. split; [|split; [|split; [|split; [|split; [|split; [|split]]]]]].
  - intros b Hb v s Hv. simpl in Hb. repeat (destruct Hb as [<-|Hb]; [simpl in Hv; destruct Hv as [[= <- <-]|[]]; unfold valid_range; cbn; lia|]). contradiction.
  - eexists. eexists. reflexivity.
  - eexists. simpl. left. reflexivity.
  - exists [pass 2 [copied (vw 1 1 0)]]. split; [reflexivity|]. intros b [<-|[]] H. discriminate.
  - intros k Hk (layer & (mip & s & U) & _). unfold needs, declared, covers in U. simpl in U.
    destruct k as [|k]; [discriminate|]. simpl in Hk. lia.
  - exists 0, 0. eexists. split; reflexivity.
  - intros layer mip s _. unfold needs. simpl. destruct (covers (vw 1 1 0) 1 layer mip); intros [= <-]; reflexivity.
  - vm_compute. reflexivity.
Qed.

(** C50: the current and the next states. *)
Theorem C50_current_and_next : forall e g deps passes i p c idx,
  env_keeps_states e -> Forall pass_keeps_states passes ->
  nth_error (trace_of e g deps passes) i = Some (p, c, idx) ->
  nth_error passes i = Some p /\
  (e_enabled e (rp_id p) = true -> rc_currState c = rp_state p) /\
  rc_nextState c = match next_enabled_pass e (skipn (S i) passes) with Some q => rp_state q | None => rp_state p end.
Proof.
  intros e g deps passes i p c idx He Hp Ht. unfold trace_of, record_graph in Ht.
  pose proof (trace_entry e g passes (start_context e deps passes) i p c idx) as T.
  pose proof (trace_current e g passes (start_context e deps passes) i p c idx He Hp) as C.
  destruct (record_loop e g passes (start_context e deps passes)) as [[c3 l3] tr]. cbn [snd] in *.
  destruct (T Ht) as (A & _ & c0 & Hc). split; [exact A|]. split.
  - intro Hen. apply C; auto. intros p0 H0. destruct passes as [|x y]; [discriminate|]. simpl in H0. injection H0 as ->. reflexivity.
  - rewrite Hc. apply prepare_states.
Qed.
Print Assumptions C50_current_and_next.

(* The previous state is the one of the preceding pass when it is enabled. *)
Theorem C50_previous_partial : forall e g deps passes i p c idx p' c' idx',
  env_keeps_states e -> Forall pass_keeps_states passes ->
  nth_error (trace_of e g deps passes) i = Some (p', c', idx') ->
  nth_error (trace_of e g deps passes) (S i) = Some (p, c, idx) ->
  e_enabled e (rp_id p') = true -> rc_prevState c = rp_state p'.
Proof.
  intros e g deps passes i p c idx p' c' idx' He Hp Hi Hsi Hen.
  pose proof (C50_current_and_next e g deps passes i p' c' idx' He Hp Hi) as (_ & C & _).
  unfold trace_of, record_graph in *.
  pose proof (trace_chain e g passes He Hp (start_context e deps passes)) as (_ & T & _).
  destruct (record_loop e g passes (start_context e deps passes)) as [[c3 l3] tr]. cbn [snd fst] in *.
  destruct (T i c' c) as [E _]; [unfold entry_ctx; rewrite Hi; reflexivity|unfold entry_ctx; rewrite Hsi; reflexivity|].
  rewrite E. apply C. exact Hen.
Qed.
Print Assumptions C50_previous_partial.

Lemma example_keeps e passes : (forall p, In p passes -> exists id l, p = pass id l) -> env_keeps_states (on e) /\ Forall pass_keeps_states passes.
Proof.
  intro H. split; [intros k c i; repeat split|]. apply Forall_forall. intros p Hp. destruct (H p Hp) as (id & l & ->).
  split; [intros c i; repeat split|split; constructor].
Qed.
Example C50_applies : env_keeps_states (on [1; 3]) /\ Forall pass_keeps_states chain /\
  map (fun x => ps_stage (rc_currState (snd (fst x)))) (trace_of (on [1; 3]) nograph [] chain) = [2; 8; 8] /\
  map (fun x => ps_stage (rc_nextState (snd (fst x)))) (trace_of (on [1; 3]) nograph [] chain) = [8; 8; 8].
Proof.
  destruct (example_keeps [1; 3] chain) as [A B].
  - intros p Hp. simpl in Hp. repeat (destruct Hp as [<-|Hp]; [eexists; eexists; reflexivity|]). contradiction.
  - split; [exact A|]. split; [exact B|]. split; vm_compute; reflexivity.
Qed.

(* After a disabled pass, the previous state is not the one of the last recorded pass. *)
Theorem C50_previous_refuted : exists e g passes i p c idx p0,
  env_keeps_states e /\ Forall pass_keeps_states passes /\
  nth_error (trace_of e g [] passes) i = Some (p, c, idx) /\ e_enabled e (rp_id p) = true /\
  next_enabled_pass e (rev (firstn i passes)) = Some p0 /\
  rc_prevState c = rp_state p /\ rp_state p <> rp_state p0.
Proof.
  destruct (example_keeps [1; 3] chain) as [A B].
  { intros p Hp. simpl in Hp. repeat (destruct Hp as [<-|Hp]; [eexists; eexists; reflexivity|]). contradiction. }
  exists (on [1; 3]), nograph, chain, 2%nat, (pass 3 [sampled (vw 1 1 0)]). eexists. eexists. exists (pass 1 [target (vw 1 1 0)]).
  split; [exact A|]. split; [exact B|]. split; [reflexivity|]. split; [reflexivity|]. split; [reflexivity|]. split; [reflexivity|discriminate].
Qed.
Print Assumptions C50_previous_refuted.

(** C14: what a recording knows when it starts: an image is known as the first graph depended on that knows it left it, and so is
    a buffer. *)
Fixpoint first_known {V} (q : N) (l : list (nmap V)) : option V :=
  match l with [] => None | m :: r => match mfind q m with Some v => Some v | None => first_known q r end end.
Lemma import_any {V} (data : nmap V) : forall h q,
  mfind q (fold_left (fun acc e => minsert (fst e) (snd e) acc) data h) = match mfind q h with Some m => Some m | None => mfind q data end.
Proof.
  induction data as [|[k v] d IH]; intros h q; cbn [fold_left fst snd mfind]; [destruct (mfind q h); reflexivity|].
  rewrite IH, mfind_minsert. destruct (mfind q h) as [m|]; [reflexivity|]. destruct (N.eqb q k) eqn:E; [reflexivity|reflexivity].
Qed.
Theorem C14_recording_starts_from_dependencies : forall e deps passes q,
  mfind q (rc_images (start_context e deps passes)) = first_known q (map rc_images deps) /\
  mfind q (rc_buffers (start_context e deps passes)) = first_known q (map rc_buffers deps).
Proof.
  intros e deps passes q. set (c := fold_left rc_addStates deps new_rctx).
  assert (S : rc_images (start_context e deps passes) = rc_images c /\ rc_buffers (start_context e deps passes) = rc_buffers c).
  { unfold start_context. fold c. destruct passes; split; reflexivity. }
  destruct S as [-> ->]. subst c.
  assert (G : forall deps x,
    mfind q (rc_images (fold_left rc_addStates deps x)) = match mfind q (rc_images x) with Some v => Some v | None => first_known q (map rc_images deps) end /\
    mfind q (rc_buffers (fold_left rc_addStates deps x)) = match mfind q (rc_buffers x) with Some v => Some v | None => first_known q (map rc_buffers deps) end).
  { induction deps0 as [|d l IH]; intro x; cbn [fold_left map first_known]; [split; match goal with |- ?a = match ?b with _ => _ end => destruct b end; reflexivity|].
    destruct (IH (rc_addStates x d)) as [-> ->]. unfold rc_addStates, addStates. cbn [rc_images rc_buffers]. rewrite !import_any. split.
    - destruct (mfind q (rc_images x)); reflexivity.
    - destruct (mfind q (rc_buffers x)); reflexivity. }
  destruct (G deps new_rctx) as [-> ->]. split; reflexivity.
Qed.
Print Assumptions C14_recording_starts_from_dependencies.
(** C50: the imported previous state is, among those the graphs depended on end with, the one with the greatest access mask; it is
    then lost (below). *)
Theorem C50_imported_previous : forall deps, let c := fold_left rc_addStates deps new_rctx in
  (forall d, In d deps -> ps_access (rc_currState d) <= ps_access (rc_prevState c)) /\
  (rc_prevState c = bottom_state \/ exists d, In d deps /\ rc_prevState c = rc_currState d).
Proof.
  intro deps.
  assert (G : forall l x, let c := fold_left rc_addStates l x in
    ps_access (rc_prevState x) <= ps_access (rc_prevState c) /\ (forall d, In d l -> ps_access (rc_currState d) <= ps_access (rc_prevState c)) /\
    (rc_prevState c = rc_prevState x \/ exists d, In d l /\ rc_prevState c = rc_currState d)).
  { induction l as [|d l IH]; intro x; cbv zeta; cbn [fold_left].
    - split; [apply N.le_refl|]. split; [intros d []|left; reflexivity].
    - destruct (IH (rc_addStates x d)) as (A & B & C). cbv zeta in *. set (c := fold_left rc_addStates l (rc_addStates x d)) in *. clearbody c.
      unfold rc_addStates in A, C. cbn [rc_prevState] in A, C. destruct (N.ltb_spec (ps_access (rc_prevState x)) (ps_access (rc_currState d))) as [L|L].
      + split; [lia|]. split; [intros y [<-|Hy]; [exact A|apply B; exact Hy]|]. right. destruct C as [C|(y & Hy & C)]; [exists d; split; [left; reflexivity|exact C]|exists y; split; [right; exact Hy|exact C]].
      + split; [exact A|]. split; [intros y [<-|Hy]; [lia|apply B; exact Hy]|]. destruct C as [C|(y & Hy & C)]; [left; exact C|right; exists y; split; [right; exact Hy|exact C]]. }
  destruct (G deps new_rctx) as (_ & B & C). split; [exact B|exact C].
Qed.
Print Assumptions C50_imported_previous.
Example C50_import_example : exists d1 d2, ps_stage (rc_prevState (fold_left rc_addStates [d1; d2] new_rctx)) = S_TRANSFER /\
  mfind 7 (rc_buffers (start_context (on []) [d1; d2] chain)) = Some {| ps_access := 5; ps_stage := 6 |}.
Proof.
  exists (setNextPipelineState (setNextPipelineState new_rctx {| ps_access := A_SHADER_READ; ps_stage := S_FRAGMENT |} []) bottom_state []),
         (set_buffers (setNextPipelineState (setNextPipelineState new_rctx {| ps_access := A_TRANSFER_WRITE; ps_stage := S_TRANSFER |} []) bottom_state []) [(7, {| ps_access := 5; ps_stage := 6 |})]).
  split; vm_compute; reflexivity.
Qed.

(* The first pass never sees the final state of a graph this one depends on, although it is imported. *)
Theorem C50_dependency_state_lost_refuted : forall e g deps p rest c idx,
  env_keeps_states e -> Forall pass_keeps_states (p :: rest) ->
  nth_error (trace_of e g deps (p :: rest)) 0 = Some (p, c, idx) ->
  rc_prevState c = {| ps_access := 0; ps_stage := S_BOTTOM |}.
Proof.
  intros e g deps p rest c idx He Hp Ht. unfold trace_of, record_graph in Ht.
  pose proof (trace_chain e g (p :: rest) He Hp (start_context e deps (p :: rest))) as (T & _ & _).
  destruct (record_loop e g (p :: rest) (start_context e deps (p :: rest))) as [[c3 l3] tr]. cbn [snd fst] in *.
  destruct (T c) as [E _]; [unfold entry_ctx; rewrite Ht; reflexivity|]. rewrite E. simpl.
  assert (G : forall l x, rc_nextState (fold_left rc_addStates l x) = rc_nextState x).
  { induction l as [|d l IH]; intro x; simpl; [reflexivity|]. rewrite IH. reflexivity. }
  rewrite G. reflexivity.
Qed.
Print Assumptions C50_dependency_state_lost_refuted.

(** C58: the stage of the semaphore returned by run, when the last pass is enabled. *)
Theorem C58_returned_stage_partial : forall e g deps passes g' l tr p,
  env_keeps_states e -> Forall pass_keeps_states passes ->
  record_graph e g deps (passes ++ [p]) = (g', l, tr) -> pass_keeps_states p ->
  e_enabled e (rp_id p) = true -> returned_stage g' = ps_stage (rp_state p).
Proof.
  intros e g deps passes g' l tr p He Hps Hr Hp Hen.
  assert (Hall : Forall pass_keeps_states (passes ++ [p])) by (apply Forall_app; split; [exact Hps|constructor; [exact Hp|constructor]]).
  pose proof (trace_chain e g (passes ++ [p]) He Hall (start_context e deps (passes ++ [p]))) as (_ & _ & T).
  pose proof (trace_length e g (passes ++ [p]) (start_context e deps (passes ++ [p]))) as Hlen.
  pose proof (fun c idx => C50_current_and_next e g deps (passes ++ [p]) (length passes) p c idx He Hall) as C.
  pose proof (trace_entry e g (passes ++ [p]) (start_context e deps (passes ++ [p])) (length passes)) as TE.
  unfold trace_of, record_graph in *.
  destruct (record_loop e g (passes ++ [p]) (start_context e deps (passes ++ [p]))) as [[c3 l3] tr3]. cbn [snd fst] in *.
  injection Hr as <- <- <-. unfold returned_stage. cbn [g_final].
  rewrite app_length, Nat.add_1_r in Hlen, T. cbn [length pred] in T. rewrite Nat.add_1_r in T || idtac. cbn [pred] in T.
  destruct (nth_error tr3 (length passes)) as [[[p' c'] idx']|] eqn:En.
  - destruct (TE p' c' idx' eq_refl) as (A & _). rewrite nth_error_app2, Nat.sub_diag in A by lia. simpl in A. injection A as <-.
    destruct (C c' idx' eq_refl) as (_ & Cc & _). specialize (Cc Hen).
    destruct (T c') as (_ & E2 & _); [unfold entry_ctx; rewrite En; reflexivity|]. rewrite E2, Cc. reflexivity.
  - apply nth_error_None in En. cbn [length] in Hlen. lia.
Qed.
Print Assumptions C58_returned_stage_partial.
Example C58_partial_applies : returned_stage (fst (fst (record_graph (on [1; 3]) nograph [] chain))) = 8.
Proof. vm_compute. reflexivity. Qed.

(** C58: false in general, the stage can be the one of a disabled pass. *)
Theorem C58_returned_stage_refuted : exists e g passes p0,
  env_keeps_states e /\ Forall pass_keeps_states passes /\
  next_enabled_pass e (rev passes) = Some p0 /\
  returned_stage (fst (fst (record_graph e g [] passes))) <> ps_stage (rp_state p0) /\
  exists q, In q passes /\ e_enabled e (rp_id q) = false /\ returned_stage (fst (fst (record_graph e g [] passes))) = ps_stage (rp_state q).
Proof.
  destruct (example_keeps [1] chain) as [A B].
  { intros p Hp. simpl in Hp. repeat (destruct Hp as [<-|Hp]; [eexists; eexists; reflexivity|]). contradiction. }
  exists (on [1]), nograph, chain, (pass 1 [target (vw 1 1 0)]).
  split; [exact A|]. split; [exact B|]. split; [reflexivity|]. split.
  - vm_compute. discriminate.
  - exists (pass 2 [copied (vw 1 1 0)]). split; [simpl; auto|]. split; [reflexivity|]. vm_compute. reflexivity.
Qed.
Print Assumptions C58_returned_stage_refuted.
