(* C108: the inputs and outputs declared for a graph, and the final states it gives. *)
From Verif Require Import Spec_Inout Model_Frames Proof_Layout Proof_Record Proof_Run2 Proof_Run3 Proof_Device Proof_Device2 Proof_Device4 Proof_Device6 Proof_Inout Proof_Inout2 Props_Record Props_Device.
From Coq Require Import Lia PeanoNat.
Local Open Scope N_scope.

(** After any history of declarations, by the graph or its groups, and recordings, the state asked for a view is the one last declared, as an
    input or as an output, for the subresources of the view. *)
Theorem C108_declared_states : forall out l v s,
  proper_steps l -> valid_range (getVirtualRange (v_image v) (v_type v) (v_range v)) ->
  (forall layer mip, part_of v layer mip -> last_said out l (i_id (v_image v)) layer mip s) ->
  asked out (graph_steps l) v = s.
Proof.
  intros out l v s Hp Hv H. rewrite asked_store. apply tracked_get; [exact Hv|]. intros layer mip Hi. apply said_tracked; [exact Hp|]. apply H, Hi.
Qed.
Print Assumptions C108_declared_states.
(** Where nothing was declared the layout is UNDEFINED and there is no access. *)
Theorem C108_undeclared : forall out l v,
  proper_steps l -> valid_range (getVirtualRange (v_image v) (v_type v) (v_range v)) ->
  (forall layer mip, part_of v layer mip -> never_said out l (i_id (v_image v)) layer mip) ->
  ls_layout (asked out (graph_steps l) v) = L_UNDEFINED /\ ps_access (ls_state (asked out (graph_steps l) v)) = 0.
Proof.
  intros out l v Hp Hv H. rewrite asked_store. apply untracked_get; [exact Hv|]. intros layer mip Hi. apply never_tracked; [exact Hp|]. apply H, Hi.
Qed.
Print Assumptions C108_undeclared.
(* Six layers declared by a group, two of them again by the graph, an output and a recording in between. *)
Definition six : view := vw 4 1 (rng 0 1 0 6).
Definition two : view := vw 5 1 (rng 0 1 2 2).
Definition one : view := vw 6 1 (rng 0 1 3 1).
Definition s_read : lstate := makeLayoutState L_SHADER_READ_ONLY.
Definition s_source : lstate := makeLayoutState L_TRANSFER_SRC.
Definition some_steps : list gstep := [SGroupInputView six s_read; SOutputView six s_source; SRecord all_on [] (fun _ => ex_frame); SInput (v_image two) (v_type two) (v_range two) s_source].
Example C108_history :
  input_state (graph_steps some_steps) one = s_source /\ ls_layout (output_state (graph_steps some_steps) (lv 2 2)) = L_UNDEFINED.
Proof.
  assert (P : proper_steps some_steps).
  { intros x out im vt r s [<-|[<-|[<-|[<-|[]]]]] E; destruct out; try discriminate E; injection E as <- <- <- <-; vm_compute; repeat split; discriminate. }
  split.
  - apply (C108_declared_states false some_steps one s_source P); [vm_compute; repeat split; discriminate|].
    intros layer mip Hi. exists [SGroupInputView six s_read; SOutputView six s_source; SRecord all_on [] (fun _ => ex_frame)], (SInput (v_image two) (v_type two) (v_range two) s_source), [].
    exists (v_image two), (v_type two), (v_range two). split; [reflexivity|]. split; [reflexivity|]. split; [|intros y d0 []].
    split; [reflexivity|]. revert Hi. unfold part_of, in_range. cbn. lia.
  - apply (C108_undeclared true some_steps (lv 2 2) P); [vm_compute; repeat split; discriminate|].
    intros layer mip Hi y d0 [<-|[<-|[<-|[<-|[]]]]] E; try discriminate E. injection E as <-. intros [K _]. discriminate K.
Qed.

(** The final layout given for a view after a recording is UNDEFINED or the one the device has; a view made of others has the one of
    the source chosen. *)
Theorem C108_final_layouts : forall e g F deps passes d v index,
  regions F -> sound_passes e g F passes -> (forall w, F w -> truthful g (start_context e deps passes) d w) ->
  v_source v = [] \/ (index < length (v_source v))%nat -> (forall w, In w (v_source v) -> v_source w = []) -> F (resolveView v index) ->
  let '(g', cmds, _) := record_graph e g deps passes in
  exists s, final_state g' v index = Some s /\ (ls_layout s = L_UNDEFINED \/ view_in (after_all d cmds) (resolveView v index) (ls_layout s)).
Proof.
  intros e g F deps passes d v index HF Hp R Hi Hs Fv. pose proof (graph_good e g F HF deps passes d Hp R) as G.
  destruct (record_graph e g deps passes) as [[g' cmds] tr]. destruct G as (_ & B & _).
  eexists. split; [apply final_resolved; assumption|]. apply (B _ Fv).
Qed.
Print Assumptions C108_final_layouts.
Definition both : view := mkView 9 (img 1) 0 VT_2D 0 (rng 0 1 0 1) [lv 1 1; lv 2 2].
Example C108_final_applies : let g' := fst (fst (record_graph all_on empty_graph [] ex_frame)) in
  option_map ls_layout (final_state g' both 0) = Some L_SHADER_READ_ONLY /\ option_map ls_layout (final_state g' both 1) = Some L_GENERAL /\ final_state g' both 2 = None.
Proof. cbv zeta. split; [|split]; vm_compute; reflexivity. Qed.

(** A declared output is honoured by a render pass made by the recording, when the enabled passes after it do not use the image: at the end
    of the recording the device has the target in the declared layout. *)
Theorem C108_output_honoured_partial : forall e g F deps passes1 p body t passes2 a d,
  let q := render_pass e g p body t in let passes := passes1 ++ q :: passes2 in let v := attach_view a (rp_index p) in
  regions F -> sound_passes e g F passes -> (forall w, F w -> truthful g (start_context e deps passes) d w) ->
  e_enabled e (rp_id p) = true -> proper_targets e F p -> neutral_fun body -> holds F p t -> rd_renderPass (pass_data t (rp_index p)) = 0 ->
  In a (rp_images p) -> isTarget a = true -> ls_layout (output_state g v) <> L_UNDEFINED ->
  (forall b, In b passes2 -> valid_views (e_separate e) b /\
    (e_enabled e (rp_id b) = true -> ~ share_layer (e_separate e) p b (i_id (v_image v)) /\ leaves_alone (flat_map rp_implicit passes) v b)) ->
  let '(_, cmds, _) := record_graph e g deps passes in view_in (after_all d cmds) v (ls_layout (output_state g v)).
Proof.
  intros e g F deps passes1 p body t passes2 a d q passes v HF Hs R En Hp Hb Ht H0 Ia T Ho Hl.
  pose proof (output_honoured e g F HF deps passes1 p body t passes2 a d Hs R En Hp Hb Ht H0 Ia T Ho Hl) as G. fold q passes v in G.
  destruct (record_graph e g deps passes) as [[g' cmds] tr]. exact G.
Qed.
Print Assumptions C108_output_honoured_partial.
(* The render pass that draws on level 0, whose declared output is to be sampled, then a pass that samples another image. *)
Definition out_graph : rgraph := graph_steps [SOutputView (lv 1 1) s_read].
Definition other_pass : rpass := marker_pass 7 [declare_image addSampledView 7 [lv 3 3] 0 0 0 0] [] true.
Definition drawing (g : rgraph) : rpass := render_pass all_on g draw_pass (fun c _ => (c, [CUser 1])) (new_target (16, 16) 1).
Lemma drawing_sound g acts : (forall x : view * action, In x acts -> False) -> sound_pass all_on g ex_regions acts (drawing g) /\ sound_pass all_on g ex_regions acts other_pass.
Proof.
  intro Na. assert (Nt : forall i v w, ~ touched acts i v w) by (intros i v w H; destruct acts as [|x l]; [exact (no_action _ _ _ H)|apply (Na x); left; reflexivity]).
  destruct (ex_frame_sound _ (or_introl eq_refl)) as (A1 & A2 & A3 & _).
  split.
  - split; [exact A1|]. split; [exact A2|]. split; [exact A3|]. split; [|split].
    + apply (C67_render_body_partial all_on g ex_regions draw_pass (fun c _ => (c, [CUser 1]))).
      * exact ex_regions_ok.
      * split; [intros v [<-|[<-|[]]]; [left|right; right; right]; reflexivity|]. split; [|split].
        -- intros a [<-|[<-|[]]]; left; reflexivity.
        -- intros a [<-|[<-|[]]]; discriminate.
        -- exact A2.
      * intros c i. split; [reflexivity|constructor; [apply neutral_user|constructor]].
      * split; [cbn; lia|]. split; [left; reflexivity|discriminate].
      * left. reflexivity.
    + intros x Hx. destruct (Na x Hx).
    + repeat first [apply FOP_nil|apply FOP_cons|apply Forall_nil|apply Forall_cons]; intros w H; destruct (Nt _ _ _ H).
  - split; [intros v [<-|[]]; right; right; left; reflexivity|]. split; [constructor; [intros y []|constructor]|]. split; [intros f [[]|[]]|]. split; [|split].
    + apply C67_plain_body; [exact ex_regions_ok|]. intros c i. split; [reflexivity|constructor; [apply neutral_user|constructor]].
    + intros x Hx. destruct (Na x Hx).
    + repeat first [apply FOP_nil|apply FOP_cons|apply Forall_nil|apply Forall_cons].
Qed.
Example C108_output_applies :
  let '(_, cmds, _) := record_graph all_on out_graph [] [drawing out_graph; other_pass] in
  view_in (after_all (fun _ _ _ => 0) cmds) (lv 1 1) L_SHADER_READ_ONLY.
Proof.
  pose proof (C108_output_honoured_partial all_on out_graph ex_regions [] [] draw_pass (fun c _ => (c, [CUser 1])) (new_target (16, 16) 1) [other_pass]
    (declare_image addOutputColourView 1 [lv 1 1] 0 0 0 9) (fun _ _ _ => 0)) as H. cbv zeta in H.
  apply H; clear H.
  - exact ex_regions_ok.
  - intros p [<-|[<-|[]]]; apply drawing_sound; intros x [].
  - intros v [->|[->|[->| ->]]]; left; vm_compute; reflexivity.
  - reflexivity.
  - split; [intros v [<-|[<-|[]]]; [left|right; right; right]; reflexivity|]. split; [|split].
    + intros a [<-|[<-|[]]]; left; reflexivity.
    + intros a [<-|[<-|[]]]; discriminate.
    + destruct (ex_frame_sound _ (or_introl eq_refl)) as (_ & A2 & _). exact A2.
  - intros c i. split; [reflexivity|constructor; [apply neutral_user|constructor]].
  - split; [cbn; lia|]. split; [left; reflexivity|discriminate].
  - reflexivity.
  - left. reflexivity.
  - reflexivity.
  - vm_compute. discriminate.
  - intros b [<-|[]]. split; [|intros _; split].
    + intros v s [E|[]]. injection E as <- _. vm_compute. repeat split; discriminate.
    + intros (layer & _ & mip & s & Hn). unfold needs in Hn. cbn in Hn. discriminate Hn.
    + split; [intros a [<-|[]]; left; discriminate|]. split.
      * intros a w _ H. destruct (no_action _ _ _ H).
      * intros c d k V. exact V.
Qed.

(** A declared output is not honoured for an image written otherwise: here one written as a storage image stays in GENERAL, though its declared
    output is to be sampled. *)
Definition write_pass : rpass := marker_pass 1 [declare_image addOutputStorageView 1 [lv 2 2] 0 0 0 0] [] true.
Definition out_graph2 : rgraph := graph_steps [SOutputView (lv 2 2) s_read].
Lemma write_sound g : sound_passes all_on g ex_regions [write_pass].
Proof.
  intros p [<-|[]]. split; [intros v [<-|[]]; right; left; reflexivity|]. split; [constructor; [intros y []|constructor]|]. split; [intros f [[]|[]]|]. split; [|split].
  - apply C67_plain_body; [exact ex_regions_ok|]. intros c i. split; [reflexivity|constructor; [apply neutral_user|constructor]].
  - intros x [].
  - repeat first [apply FOP_nil|apply FOP_cons|apply Forall_nil|apply Forall_cons].
Qed.
Theorem C108_output_ignored_refuted : exists e g F passes p a v d,
  regions F /\ sound_passes e g F passes /\ (forall w, F w -> truthful g (start_context e [] passes) d w) /\
  In p passes /\ e_enabled e (rp_id p) = true /\ In a (rp_images p) /\ attach_view a (rp_index p) = v /\
  ls_layout (output_state g v) = L_SHADER_READ_ONLY /\
  let '(_, cmds, _) := record_graph e g [] passes in view_in (after_all d cmds) v L_GENERAL /\ ~ view_in (after_all d cmds) v L_SHADER_READ_ONLY.
Proof.
  exists all_on, out_graph2, ex_regions, [write_pass], write_pass, (declare_image addOutputStorageView 1 [lv 2 2] 0 0 0 0), (lv 2 2), (fun _ _ _ => 0).
  split; [exact ex_regions_ok|]. split; [apply write_sound|]. split; [intros v [->|[->|[->| ->]]]; left; vm_compute; reflexivity|].
  split; [left; reflexivity|]. split; [reflexivity|]. split; [left; reflexivity|]. split; [reflexivity|]. split; [vm_compute; reflexivity|].
  set (x := record_graph all_on out_graph2 [] [write_pass]). vm_compute in x. subst x. cbv iota beta. split.
  - intros layer mip [H1 H2]. cbn in H1, H2. assert (layer = 0) as -> by lia. assert (mip = 0) as -> by lia. vm_compute. reflexivity.
  - intro V. specialize (V 0 0). assert (R : in_range (v_range (lv 2 2)) 0 0) by (unfold in_range; cbn; lia). specialize (V R). vm_compute in V. discriminate V.
Qed.
Print Assumptions C108_output_ignored_refuted.
(** Then a graph whose declared input is the declared output of the one before records a barrier that states a wrong layout. *)
Definition copy_source : rpass := marker_pass 2 [declare_image addTransferInputView 2 [lv 2 2] 0 0 0 0] [] true.
Definition in_graph2 : rgraph := graph_steps [SInputView (lv 2 2) s_read].
Theorem C108_chained_graphs_refuted : exists e g1 passes1 g2 passes2 v d F,
  sound_passes e g1 F passes1 /\ sound_passes e g2 F passes2 /\ regions F /\ F v /\
  input_state g2 v = output_state g1 v /\ (forall w, F w -> w <> v -> ls_layout (input_state g2 w) = L_UNDEFINED) /\
  let '(_, cmds1, _) := record_graph e g1 [] passes1 in let '(_, cmds2, _) := record_graph e g2 [] passes2 in
  all_legal d cmds1 /\ ~ all_legal (after_all d cmds1) cmds2.
Proof.
  exists all_on, out_graph2, [write_pass], in_graph2, [copy_source], (lv 2 2), (fun _ _ _ => 0), ex_regions.
  split; [apply write_sound|]. split.
  { intros p [<-|[]]. split; [intros v [<-|[]]; right; left; reflexivity|]. split; [constructor; [intros y []|constructor]|]. split; [intros f [[]|[]]|]. split; [|split].
    - apply C67_plain_body; [exact ex_regions_ok|]. intros c i. split; [reflexivity|constructor; [apply neutral_user|constructor]].
    - intros x [].
    - repeat first [apply FOP_nil|apply FOP_cons|apply Forall_nil|apply Forall_cons]. }
  split; [exact ex_regions_ok|]. split; [right; left; reflexivity|]. split; [vm_compute; reflexivity|].
  split; [intros w [->|[->|[->| ->]]] Hw; try (contradiction Hw; reflexivity); vm_compute; reflexivity|].
  assert (T : forall w, ex_regions w -> truthful out_graph2 (start_context all_on [] [write_pass]) (fun _ _ _ => 0) w) by (intros v [->|[->|[->| ->]]]; left; vm_compute; reflexivity).
  pose proof (C67_commands_state_real_layouts_partial all_on out_graph2 ex_regions [] [write_pass] (fun _ _ _ => 0) ex_regions_ok (write_sound _) T) as G.
  set (x := record_graph all_on out_graph2 [] [write_pass]) in *. set (y := record_graph all_on in_graph2 [] [copy_source]). vm_compute in x, y. subst x y. cbv iota beta in *.
  split; [apply G|]. intros (_ & _ & (A & _) & _). destruct A as [A|A]; [discriminate A|]. specialize (A 0 0). assert (R : in_range (rng 0 1 0 1) 0 0) by (unfold in_range; cbn; lia).
  specialize (A R). vm_compute in A. discriminate A.
Qed.
Print Assumptions C108_chained_graphs_refuted.
(** An output declared after a first recording is not honoured either: the render pass of the first recording is used again. *)
Definition late_draw : fpass := {| fp_pass := marker_pass 1 [declare_image addOutputColourView 1 [lv 1 1] 0 0 0 9] [] false; fp_render := Some (fun c _ => (c, [CUser 1])) |}.
Theorem C108_late_output_refuted : exists e x v d,
  e_enabled e (rp_id (fp_pass x)) = true /\ In v (pass_views (fp_pass x)) /\ fp_render x <> None /\
  let '(g1, cmds1, ts) := record_frame e new_graph [] [(x, new_target (16, 16) 1)] in
  let g2 := add_output_view g1 v s_read in
  let '(_, cmds2, _) := record_frame e g2 [] (combine [x] ts) in
  output_state g2 v = s_read /\ ~ view_in (after_all d (cmds1 ++ cmds2)) v (ls_layout (output_state g2 v)) /\
  let '(_, fresh, _) := record_frame e g2 [] [(x, new_target (16, 16) 1)] in view_in (after_all d (cmds1 ++ fresh)) v (ls_layout (output_state g2 v)).
Proof.
  exists all_on, late_draw, (lv 1 1), (fun _ _ _ => 0). split; [reflexivity|]. split; [left; reflexivity|]. split; [discriminate|].
  set (x := record_frame all_on new_graph [] [(late_draw, new_target (16, 16) 1)]). vm_compute in x. subst x. cbv iota beta zeta.
  match goal with |- context [record_frame all_on ?gg [] (combine [late_draw] ?tt)] => set (y := record_frame all_on gg [] (combine [late_draw] tt)); set (z := record_frame all_on gg [] [(late_draw, new_target (16, 16) 1)]) end.
  vm_compute in y, z. subst y z. cbv iota beta. split; [vm_compute; reflexivity|]. split.
  - intro V. specialize (V 0 0). assert (R : in_range (v_range (lv 1 1)) 0 0) by (unfold in_range; cbn; lia). specialize (V R). vm_compute in V. discriminate V.
  - intros layer mip [H1 H2]. cbn in H1, H2. assert (layer = 0) as -> by lia. assert (mip = 0) as -> by lia. vm_compute. reflexivity.
Qed.
Print Assumptions C108_late_output_refuted.
