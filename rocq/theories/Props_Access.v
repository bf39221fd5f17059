(* C86-C88: stages and accesses of the barriers, pipeline states, aspects. *)
From Verif Require Import Spec_Access Proof_Layout Proof_Record Props_Attach Props_Record Proof_Access Proof_Access2 Proof_Access3 Model_Mips Spec_Mips Proof_Access4.
From Coq Require Import ZifyBool ZifyNat ZifyN.
Local Open Scope N_scope.

(** C86: a barrier names a stage on both sides and, on each side, only accesses its stages can make. *)

(* The stage and the accesses of each layout, for every layout the library handles. *)
Theorem C86_layout_stage_access : forall l, handled l -> l <> L_UNDEFINED -> l <> L_GENERAL ->
  getStageMask l = layout_stage l /\ getAccessMask l = layout_access l /\ supports l (getAccessMask l) /\ scope_ok (getStageMask l) (getAccessMask l).
Proof.
  intros l H U G. assert (S : scope_ok (getStageMask l) (getAccessMask l)) by (apply (handled_scope l H)). split; [|split; [|split; [apply own_access_supported|exact S]]];
    cbn in H; repeat (destruct H as [<-|H]; [reflexivity || contradiction|]); destruct H.
Qed.
Print Assumptions C86_layout_stage_access.
(* Layouts without stages: a barrier to one of them has no destination stage; FRAGMENT_DENSITY has an access its stage cannot make. *)
Theorem C86_unhandled_layouts_refuted :
  (forall l, In l [L_DEPTH_ATTACHMENT; L_DEPTH_READ_ONLY; L_STENCIL_ATTACHMENT; L_STENCIL_READ_ONLY] ->
     getStageMask l = 0 /\ getAccessMask l = 0 /\ ~ scope_ok (getStageMask l) (getAccessMask l)) /\
  ~ scope_ok (getStageMask L_FRAGMENT_DENSITY) (getAccessMask L_FRAGMENT_DENSITY).
Proof.
  split.
  - intros l H. cbn in H. repeat (destruct H as [<-|H]; [split; [reflexivity|split; [reflexivity|intros [S _]; apply S; reflexivity]]|]). destruct H.
  - intros [_ A]. specialize (A 24 eq_refl). destruct A as [A|(s & a & I & L & B)]; [discriminate A|]. cbn in I. repeat (destruct I as [I|I]; [injection I as <- <-; discriminate L || discriminate B|]). destruct I.
Qed.
Print Assumptions C86_unhandled_layouts_refuted.

(* Whole recordings: any graph, any passes made of declared attachments, any implicit actions, any dependencies. The barriers recorded are
   right, or they start from GENERAL at the bottom of the pipe; the graph is left in such a state that it is so for the next recording. *)
Theorem C86_barriers_supported_partial : forall e g deps passes,
  coherent_env e -> coherent_graph g -> (forall d, In d deps -> coherent_context d) -> (forall p, In p passes -> coherent_pass p) ->
  let '(g', l, _) := record_graph e g deps passes in
  (forall c, In c l -> barrier_ok c \/ from_general_bottom c) /\ coherent_graph g'.
Proof.
  intros e g deps passes He Hg Hd Hp. pose proof (steady_graph e g deps passes He Hg Hd Hp) as S. destruct (record_graph e g deps passes) as [[g' l] tr]. destruct S as [S1 S2].
  split; [|exact S1]. intros c I. rewrite Forall_forall in S2. apply (S2 c I).
Qed.
Print Assumptions C86_barriers_supported_partial.
(* The passes of the library: render passes with their targets, copies of images and of buffers, passes that only write plain commands. *)
Theorem C86_library_passes_partial :
  (forall e g p body t, coherent_graph g -> coherent_pass p -> coherent_target t -> coherent_body body -> coherent_pass (render_pass e g p body t)) /\
  (forall e g p i body t c, coherent_graph g -> coherent_pass p -> coherent_target t -> coherent_body body -> coherent_context c ->
     coherent_target (fst (fst (tg_record e g p i body t c)))) /\
  (forall size n, coherent_target (new_target size n)) /\
  (forall e size final views, handled final -> coherent_body (fun c _ => image_copies e size final views c)) /\
  (forall src dst off size, coherent_body (fun c i => buffer_copy src dst i off size c)).
Proof.
  split; [|split; [|split; [|split]]].
  - intros e g p body t Hg (Pi & Pb & Pf & Pa) Ht Hb. split; [exact Pi|]. split; [exact Pb|]. split; [|exact Pa].
    intros f [I|[I| -> ]]; [apply Pf; left; exact I|apply Pf; right; left; exact I|]. apply render_coherent; assumption.
  - intros e g p i body t c Hg (Pi & _) Ht Hb C. pose proof (record_coherent e g p i body t c Hg Pi Ht Hb C) as R. destruct (tg_record e g p i body t c) as [[t' c'] l]. apply R.
  - intros size n i x. unfold pass_data, new_target. cbn [tg_passes]. assert (E : nth i (repeat new_rdata n) new_rdata = new_rdata) by (revert i; induction n as [|n IH]; intros [|i]; cbn; auto). rewrite E. intros [].
  - apply copies_coherent.
  - apply buffer_copy_coherent.
Qed.
Print Assumptions C86_library_passes_partial.
Lemma dcl m pass views binding wanted flag misc : (img_usage m = Implicit -> handled wanted) -> declared (declare_image m pass views binding wanted flag misc).
Proof. intro H. exists m, pass, views, binding, wanted, flag, misc. auto. Qed.
Lemma dclb m pass bufs binding bview off size wanted flag : hasFlag flag AF_Image = false -> (buffer_usage m = BImplicit -> scope_ok (ps_stage wanted) (ps_access wanted)) ->
  declared_buffer (declare_buffer m pass bufs binding bview off size wanted flag).
Proof. intros F H. exists m, pass, bufs, binding, bview, off, size, wanted, flag. auto. Qed.
Definition access_passes : list rpass :=
  [marker_pass 1 [declare_image addOutputStorageView 1 [vw 1 1 (rng 0 1 0 1)] 0 0 0 0] [declare_buffer addOutputStorageBuffer 1 [9] 0 0 0 64 no_pstate 0] true;
   marker_pass 2 [declare_image addSampledView 2 [vw 1 1 (rng 0 1 0 1)] 0 0 0 0; declare_image addImplicitColourView 2 [vw 2 2 (rng 0 1 0 1)] 0 L_COLOR_ATTACHMENT 0 0]
                 [declare_buffer addTransferInputBuffer 2 [9] 0 0 0 64 no_pstate 0] false].
Example C86_applies : coherent_env all_on /\ coherent_graph empty_graph /\ (forall p, In p access_passes -> coherent_pass p) /\
  snd (fst (record_graph all_on empty_graph [] access_passes)) =
  [CBeginBlock 1; CTimerBegin 1; CImageBarrier 1 (rng 0 1 0 1) S_HOST S_BOTTOM 0 0 L_UNDEFINED L_GENERAL;
   CBufferBarrier 9 0 64 S_BOTTOM S_COMPUTE 0 A_SHADER_WRITE; CUser 1; CTimerEnd 1; CEndBlock;
   CBeginBlock 2; CTimerBegin 2; CImageBarrier 1 (rng 0 1 0 1) S_BOTTOM S_FRAGMENT 0 A_SHADER_READ L_GENERAL L_SHADER_READ_ONLY;
   CImageBarrier 2 (rng 0 1 0 1) S_HOST S_COLOR_OUTPUT 0 A_COLOR_WRITE L_UNDEFINED L_COLOR_ATTACHMENT;
   CBufferBarrier 9 0 64 S_COMPUTE S_TRANSFER A_SHADER_WRITE A_TRANSFER_READ; CUser 2; CTimerEnd 2; CEndBlock].
Proof.
  assert (M : forall n i, coherent_body (rp_record (marker_pass n i [] true)) /\ coherent_body (rp_record (marker_pass n i [] false))).
  { intros n i. split; apply plain_coherent; intros c k; (split; [reflexivity|repeat constructor]). }
  split; [intros tag; apply plain_coherent; intros c i; (split; [reflexivity|repeat constructor])|].
  split; [split; [apply nil_coherent|split; [apply nil_coherent|apply new_coherent]]|]. split; [|vm_compute; reflexivity].
  intros p [<-|[<-|[]]].
  - split; [|split; [|split]].
    + intros a [<-|[]]. apply dcl. discriminate.
    + intros a [<-|[]]. apply dclb; [reflexivity|discriminate].
    + intros f [[]|[[]| -> ]]. apply (M 1 []).
    + intros w a [].
  - split; [|split; [|split]].
    + intros a [<-|[<-|[]]]; apply dcl; [discriminate|]. intros _. cbn. tauto.
    + intros a [<-|[]]. apply dclb; [reflexivity|discriminate].
    + intros f [[]|[[]| -> ]]. apply (M 2 []).
    + intros w a [].
Qed.
(* The mipmaps generation: whatever the image, the number of its levels and layers and what is known of them, the barriers around the blits are
   right, if the state needed next (the one of the last barriers) is: the bottom of the pipe with shader accesses, in GENERAL, is not. *)
Theorem C86_mips_partial : forall e g p v itype c,
  coherent_graph g -> (forall a, In a (rp_images p) -> declared a) -> coherent_context c -> (itype = VT_3D <-> v_type v = VT_3D) ->
  (let next := getNextLayoutState e g c p v in ls_layout next = L_GENERAL -> ps_stage (ls_state next) = S_BOTTOM -> ps_access (ls_state next) = 0) ->
  (forall x, In x (snd (generate_mips e g p v itype c)) -> barrier_ok x \/ from_general_bottom x) /\
  coherent_context (fst (generate_mips e g p v itype c)).
Proof.
  intros e g p v itype c Hg D C T H. cbv zeta in H.
  assert (S : scope_ok (ps_stage (ls_state (getNextLayoutState e g c p v))) (ps_access (ls_state (getNextLayoutState e g c p v)))).
  { pose proof (next_state_coherent e g c p v Hg C D) as K. destruct (coherent_scope _ K) as [S|[G B]]; [exact S|]. rewrite (H G B), B. apply bottom_scope. }
  destruct (steady_mips e g p v itype c Hg D T S C) as [S1 S2]. split; [|exact S1]. intros x I. rewrite Forall_forall in S2. apply (S2 x I).
Qed.
Print Assumptions C86_mips_partial.
Definition mip_image : image := {| i_id := 3; i_width := 13; i_height := 5; i_depth := 1; i_levels := 4; i_layers := 3; i_format := 37 |}.
Definition mip_view : view := mkView 7 mip_image 0 VT_2D_ARRAY 37 {| r_aspect := ASPECT_COLOR; r_mip := 0; r_levels := 4; r_layer := 1; r_layers := 2 |} [].
Definition mip_graph (after : N) : rgraph :=
  {| g_inputs := setLayoutState [] mip_image VT_2D_ARRAY (v_range mip_view) (makeLayoutState L_COLOR_ATTACHMENT);
     g_outputs := setLayoutState [] mip_image VT_2D_ARRAY (v_range mip_view) (makeLayoutState after); g_final := new_rctx |}.
Definition mip_pass : rpass := marker_pass 1 [declare_image addTransferInOutView 1 [mip_view] 0 0 0 0] [] false.
(* The first barrier comes from the attachment output, the last ones go to the fragment shader or, for GENERAL, to the bottom of the pipe
   without accesses. *)
Example C86_mips_applies : forall after, In after [L_SHADER_READ_ONLY; L_GENERAL] ->
  coherent_graph (mip_graph after) /\ (forall a, In a (rp_images mip_pass) -> declared a) /\ coherent_context new_rctx /\ (VT_2D = VT_3D <-> v_type mip_view = VT_3D) /\
  (let next := getNextLayoutState all_on (mip_graph after) new_rctx mip_pass mip_view in
   ls_layout next = after /\ (ls_layout next = L_GENERAL -> ps_stage (ls_state next) = S_BOTTOM -> ps_access (ls_state next) = 0)) /\
  length (snd (generate_mips all_on (mip_graph after) mip_pass mip_view VT_2D new_rctx)) = 26%nat.
Proof.
  intros after H. assert (Ha : handled after) by (destruct H as [<-|[<-|[]]]; cbn; tauto).
  split; [split; [|split]|]; [apply set_coherent; [apply nil_coherent|apply coherent_make; cbn; tauto]|apply set_coherent; [apply nil_coherent|apply coherent_make; exact Ha]|apply new_coherent|].
  split; [intros a [<-|[]]; apply dcl; discriminate|]. split; [apply new_coherent|]. split; [split; intro Z; discriminate Z|].
  destruct H as [<-|[<-|[]]]; vm_compute; (split; [split; [reflexivity|intro; try discriminate; reflexivity]|reflexivity]).
Qed.
(* The exception is real: two levels known in GENERAL, one of them written by a compute shader, merge to a barrier with shader accesses at
   the bottom of the pipe. *)
Definition mixed_graph : rgraph :=
  {| g_inputs := setLayoutState (setLayoutState [] (img 1) VT_2D_ARRAY (rng 0 1 0 1) (makeLayoutState L_GENERAL)) (img 1) VT_2D_ARRAY (rng 1 1 0 1)
                   (mk_lstate L_GENERAL A_SHADER_WRITE S_COMPUTE);
     g_outputs := []; g_final := new_rctx |}.
Theorem C86_mixed_general_refuted : exists e g p, coherent_env e /\ coherent_graph g /\ coherent_pass p /\
  exists c, In c (snd (fst (record_graph e g [] [p]))) /\ ~ barrier_ok c.
Proof.
  exists all_on, mixed_graph, (marker_pass 2 [declare_image addSampledView 2 [vw 1 1 (rng 0 2 0 1)] 0 0 0 0] [] false).
  split; [intros tag; apply plain_coherent; intros c i; (split; [reflexivity|repeat constructor])|].
  split; [split; [|split; [apply nil_coherent|apply new_coherent]]|].
  { apply set_coherent; [apply set_coherent; [apply nil_coherent|apply coherent_make; cbn; tauto]|]. split; [tauto|reflexivity]. }
  split.
  { split; [|split; [|split]].
    - intros a [<-|[]]. apply dcl. discriminate.
    - intros a [].
    - intros f [[]|[[]| -> ]]. apply plain_coherent. intros c k. split; [reflexivity|repeat constructor].
    - intros w a []. }
  exists (CImageBarrier 1 (rng 0 2 0 1) S_BOTTOM S_FRAGMENT A_SHADER_WRITE A_SHADER_READ L_GENERAL L_SHADER_READ_ONLY).
  split; [vm_compute; tauto|]. intros [[_ A] _]. specialize (A 6 eq_refl). destruct A as [A|(s & a & I & L & B)]; [discriminate A|].
  cbn in I. repeat (destruct I as [I|I]; [injection I as <- <-; discriminate L || discriminate B|]). destruct I.
Qed.
Print Assumptions C86_mixed_general_refuted.
(* An implicit attachment wanted in a depth only layout gets a barrier without destination stage. *)
Theorem C86_depth_only_implicit_refuted : exists e g p, coherent_env e /\ coherent_graph g /\
  (exists views binding misc, rp_images p = [declare_image addImplicitDepthView 1 views binding L_DEPTH_READ_ONLY 0 misc]) /\
  exists c, In c (snd (fst (record_graph e g [] [p]))) /\ ~ barrier_ok c.
Proof.
  exists all_on, empty_graph, (marker_pass 1 [declare_image addImplicitDepthView 1 [vw 1 1 (rng 0 1 0 1)] 0 L_DEPTH_READ_ONLY 0 0] [] false).
  split; [intros tag; apply plain_coherent; intros c i; (split; [reflexivity|repeat constructor])|].
  split; [split; [apply nil_coherent|split; [apply nil_coherent|apply new_coherent]]|].
  split; [exists [vw 1 1 (rng 0 1 0 1)], 0, 0; reflexivity|].
  exists (CImageBarrier 1 (rng 0 1 0 1) S_HOST 0 0 0 L_UNDEFINED L_DEPTH_READ_ONLY). split; [vm_compute; tauto|]. intros [_ [S _]]. apply S. reflexivity.
Qed.
Print Assumptions C86_depth_only_implicit_refuted.

(** C87: the pipeline state made from stages has the accesses these stages make. *)
(* For any mask of stages: MEMORY_READ comes with BOTTOM_OF_PIPE; the other accesses are exactly those the stages can make, without shader
   writes, uniform reads and input attachment reads. *)
Theorem C87_pipeline_state_partial : forall flags k,
  ps_stage (getPipelineState flags) = flags /\
  (N.testbit (ps_access (getPipelineState flags)) k = true <->
   (N.land flags S_BOTTOM = S_BOTTOM /\ N.testbit A_MEMORY_READ k = true) \/
   exists s a, In (s, a) stage_bits /\ N.land flags s = s /\ N.testbit a k = true /\
               N.testbit (N.lor A_SHADER_WRITE (N.lor A_UNIFORM_READ A_INPUT_ATTACHMENT_READ)) k = false).
Proof.
  intros flags k. split; [reflexivity|]. unfold getPipelineState. cbv zeta. cbn [ps_access].
  assert (A : forall b a r, N.testbit (if has_bits flags b then N.lor r a else r) k = orb (N.testbit r k) (andb (has_bits flags b) (N.testbit a k))).
  { intros b a r. destruct (has_bits flags b); [apply N.lor_spec|rewrite andb_false_l, orb_false_r; reflexivity]. }
  rewrite !A. rewrite N.bits_0. clear A.
  assert (R : forall P : N -> N -> Prop, (exists s a, In (s, a) stage_bits /\ P s a) <-> 
     P S_FRAGMENT (N.lor A_UNIFORM_READ (N.lor A_INPUT_ATTACHMENT_READ (N.lor A_SHADER_READ A_SHADER_WRITE))) \/
     P S_COMPUTE (N.lor A_UNIFORM_READ (N.lor A_SHADER_READ A_SHADER_WRITE)) \/ P S_LATE_TESTS (N.lor A_DS_READ A_DS_WRITE) \/
     P S_COLOR_OUTPUT (N.lor A_COLOR_READ A_COLOR_WRITE) \/ P S_TRANSFER (N.lor A_TRANSFER_READ A_TRANSFER_WRITE) \/ P S_SHADING_RATE A_SHADING_RATE_READ).
  { intro P. split.
    - intros (s & a & I & H). cbn in I. repeat (destruct I as [I|I]; [injection I as <- <-; tauto|]). destruct I.
    - intro H. repeat (destruct H as [H|H]; [eexists; eexists; split; [|exact H]; cbn; tauto|]). eexists; eexists; split; [|exact H]; cbn; tauto. }
  rewrite R. clear R.
  assert (B : forall b, N.land flags b = b <-> has_bits flags b = true) by (intro b; symmetry; apply N.eqb_eq). rewrite !B. clear B.
  generalize (has_bits flags S_BOTTOM) (has_bits flags S_COLOR_OUTPUT) (has_bits flags S_LATE_TESTS) (has_bits flags S_FRAGMENT) (has_bits flags S_TRANSFER) (has_bits flags S_SHADING_RATE) (has_bits flags S_COMPUTE).
  intros b1 b2 b3 b4 b5 b6 b7.
  destruct (N.lt_ge_cases k 32) as [K|K].
  - assert (X : exists n, (n < 32)%nat /\ k = N.of_nat n) by (exists (N.to_nat k); split; lia). destruct X as (n & Hn & ->). clear K.
    do 32 (destruct n as [|n]; [destruct b1, b2, b3, b4, b5, b6, b7; vm_compute; clear; intuition discriminate|]). exfalso. clear -Hn. lia.
  - assert (Z : forall x, x < 2 ^ 32 -> N.testbit x k = false).
    { intros x Hx. destruct x as [|x]; [apply N.bits_0|]. apply N.bits_above_log2. apply N.log2_lt_pow2 in Hx; [lia|reflexivity]. }
    rewrite !Z by reflexivity. rewrite !andb_false_r. cbn. intuition discriminate.
Qed.
Print Assumptions C87_pipeline_state_partial.
Example C87_applies : getPipelineState (N.lor S_TRANSFER S_BOTTOM) = {| ps_access := N.lor A_MEMORY_READ (N.lor A_TRANSFER_READ A_TRANSFER_WRITE); ps_stage := N.lor S_TRANSFER S_BOTTOM |}.
Proof. reflexivity. Qed.
(* The writes of shaders are missing, which is what the state of a compute pass is for. *)
Theorem C87_shader_writes_refuted : forall stage, stage = S_COMPUTE \/ stage = S_FRAGMENT ->
  (exists a, In (stage, a) stage_bits /\ N.land a A_SHADER_WRITE = A_SHADER_WRITE) /\ N.land (ps_access (getPipelineState stage)) A_SHADER_WRITE = 0.
Proof. intros stage [ -> | -> ]; (split; [eexists; split; [cbn; auto|reflexivity]|reflexivity]). Qed.
Print Assumptions C87_shader_writes_refuted.

(** C88: the aspects of an image are those of its format. *)
Theorem C88_aspects_of_format : forall f,
  (N.testbit (getAspectMask f) 1 = true <-> has_depth f) /\ (N.testbit (getAspectMask f) 2 = true <-> has_stencil f) /\
  (N.testbit (getAspectMask f) 0 = true <-> ~ has_depth f /\ ~ has_stencil f) /\ getAspectMask f < 8.
Proof.
  intro f.
  assert (X : f = 124 \/ f = 125 \/ f = 126 \/ f = 127 \/ f = 128 \/ f = 129 \/ f = 130 \/ (f < 124 \/ 130 < f)) by lia.
  unfold has_depth, has_stencil.
  assert (E : (f < 124 \/ 130 < f) -> getAspectMask f = ASPECT_COLOR).
  { clear X. intro X. unfold getAspectMask, isDepthStencilFormat, isDepthFormat, isStencilFormat. cbn [existsb].
    repeat match goal with |- context [N.eqb f ?c] => replace (N.eqb f c) with false by (symmetry; apply N.eqb_neq; unfold F_D16, F_X8_D24, F_D32, F_S8, F_D16_S8, F_D24_S8, F_D32_S8; lia) end. reflexivity. }
  assert (T : forall (b : bool) (P : Prop), (b = true -> P) -> (b = false -> ~ P) -> (b = true <-> P)) by (intros [|] P H1 H2; [tauto|split; [discriminate|intro Q; exfalso; apply H2; auto]]).
  destruct X as [->|[->|[->|[->|[->|[->|[->|X]]]]]]]; [clear E..|rewrite (E X)];
    (split; [apply T; [try (intro Z; discriminate Z)|try (intro Z; discriminate Z)]; intros _; lia|
     split; [apply T; [try (intro Z; discriminate Z)|try (intro Z; discriminate Z)]; intros _; lia|
     split; [apply T; [try (intro Z; discriminate Z)|try (intro Z; discriminate Z)]; intros _; lia|reflexivity]]]).
Qed.
Print Assumptions C88_aspects_of_format.
(* The tests of formats the library offers agree. *)
Theorem C88_format_tests : forall f,
  (isDepthFormat f = true <-> has_depth f) /\ (isStencilFormat f = true <-> has_stencil f) /\
  (isColourFormat f = true <-> ~ has_depth f /\ ~ has_stencil f) /\ (isDepthStencilFormat f = true <-> has_depth f /\ has_stencil f).
Proof.
  intro f. assert (D : isDepthFormat f = true <-> has_depth f).
  { unfold isDepthFormat, has_depth, F_D16, F_X8_D24, F_D32, F_D16_S8, F_D24_S8, F_D32_S8. rewrite existsb_eqb_In. cbn. lia. }
  assert (S : isStencilFormat f = true <-> has_stencil f).
  { unfold isStencilFormat, has_stencil, F_S8, F_D16_S8, F_D24_S8, F_D32_S8. rewrite existsb_eqb_In. cbn. lia. }
  split; [exact D|]. split; [exact S|]. unfold isColourFormat, isDepthStencilFormat. rewrite <- D, <- S.
  destruct (isDepthFormat f), (isStencilFormat f); cbn; intuition discriminate.
Qed.
Print Assumptions C88_format_tests.
Fixpoint nodupb (l : list N) : bool := match l with [] => true | x :: r => andb (negb (existsb (N.eqb x) r)) (nodupb r) end.
Lemma nodupb_ok : forall l, (if nodupb l then True else False) -> NoDup l.
Proof.
  induction l as [|x l IH]; intro H; [constructor|]. cbn [nodupb] in H. destruct (existsb (N.eqb x) l) eqn:E; [destruct H|]. cbn [negb andb] in H.
  constructor; [|apply IH, H]. intro I. rewrite (proj2 (existsb_eqb_In x l) I) in E. discriminate E.
Qed.
(* Every mask constant is one bit and distinct layouts have distinct codes: nothing is confused in a barrier. *)
Theorem C88_codes_distinct :
  NoDup [L_UNDEFINED; L_GENERAL; L_COLOR_ATTACHMENT; L_DEPTH_STENCIL_ATTACHMENT; L_DEPTH_STENCIL_READ_ONLY; L_SHADER_READ_ONLY; L_TRANSFER_SRC; L_TRANSFER_DST;
         L_PRESENT_SRC; L_SHARED_PRESENT; L_DEPTH_RO_STENCIL_ATT; L_DEPTH_ATT_STENCIL_RO; L_SHADING_RATE; L_FRAGMENT_DENSITY;
         L_DEPTH_ATTACHMENT; L_DEPTH_READ_ONLY; L_STENCIL_ATTACHMENT; L_STENCIL_READ_ONLY] /\
  (let accesses := [A_INDIRECT_COMMAND_READ; A_UNIFORM_READ; A_INPUT_ATTACHMENT_READ; A_SHADER_READ; A_SHADER_WRITE; A_COLOR_READ; A_COLOR_WRITE; A_DS_READ; A_DS_WRITE;
                    A_TRANSFER_READ; A_TRANSFER_WRITE; A_MEMORY_READ; A_SHADING_RATE_READ; A_FRAGMENT_DENSITY_READ] in
   NoDup accesses /\ Forall one_bit accesses) /\
  (let stages := [S_TOP; S_FRAGMENT; S_LATE_TESTS; S_COLOR_OUTPUT; S_COMPUTE; S_TRANSFER; S_BOTTOM; S_HOST; S_SHADING_RATE] in NoDup stages /\ Forall one_bit stages) /\
  NoDup [VT_1D; VT_2D; VT_3D; VT_CUBE; VT_1D_ARRAY; VT_2D_ARRAY; VT_CUBE_ARRAY] /\
  (let aspects := [ASPECT_COLOR; ASPECT_DEPTH; ASPECT_STENCIL] in NoDup aspects /\ Forall one_bit aspects) /\
  (* the flags of the attachments *)
  (forall flags, In flags [[AF_Input; AF_Output; AF_Image; AF_Buffer; AF_NoTransition; AF_Clearable]; [BF_Uniform; BF_Storage; BF_Transfer; BF_View; BF_Transition];
      [IF_Sampled; IF_Storage; IF_Transfer; IF_Depth; IF_Stencil; IF_StencilClearing; IF_StencilInput; IF_StencilOutput; IF_Transition]] ->
   NoDup flags /\ Forall one_bit flags).
Proof.
  pose proof nodupb_ok as D.
  assert (B : forall l : list N, (if forallb (fun x => N.eqb x (2 ^ N.log2 x)) l then True else False) -> Forall one_bit l).
  { intros l H. apply Forall_forall. intros x I. destruct (forallb _ l) eqn:E; [|destruct H]. rewrite forallb_forall in E. exists (N.log2 x). apply N.eqb_eq, E, I. }
  cbv zeta. split; [|split; [|split; [|split; [|split]]]]; [|split|split| |split|]; try solve [first [apply D; vm_compute; exact Logic.I|apply B; vm_compute; exact Logic.I]].
  intros flags [<-|[<-|[<-|[]]]]; (split; [apply D|apply B]); vm_compute; exact Logic.I.
Qed.
Print Assumptions C88_codes_distinct.
Example C88_applies : getAspectMask 129 = N.lor ASPECT_DEPTH ASPECT_STENCIL /\ getAspectMask 127 = ASPECT_STENCIL /\ getAspectMask 37 = ASPECT_COLOR.
Proof. repeat split. Qed.
