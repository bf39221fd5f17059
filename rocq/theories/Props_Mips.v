(* C43: mipmaps generation. *)
From Verif Require Import Spec_Mips Proof_Mips Proof_Mips2.
From Coq Require Import ZifyBool ZifyNat ZifyN.
Local Open Scope N_scope.

(** C43, for images with at least two levels: started on a device whose levels are where the graph thinks
    they are, the recorded commands are all legal, level n of each layer of the view ends as n successive
    reductions of level 0 as it was before, every level ends in the layout needed next, and nothing else
    changes. *)
Theorem C43_whole_chain_partial : forall e g p v itype c d,
  let im := v_image v in let next := getNextLayoutState e g c p v in
  mips_view_ok v itype -> 2 <= i_levels im -> ls_layout next <> L_UNDEFINED -> informed g c d v ->
  exists d', execute_all im d (snd (generate_mips e g p v itype c)) = Some d' /\
    (forall layer mip, r_layer (v_range v) <= layer < r_layer (v_range v) + r_layers (v_range v) -> mip < i_levels im ->
        d_layout d' (i_id im) layer mip = ls_layout next /\
        d_content d' (i_id im) layer mip = reduced mip (d_content d (i_id im) layer 0)) /\
    (forall i layer mip, ~ (i = i_id im /\ r_layer (v_range v) <= layer < r_layer (v_range v) + r_layers (v_range v) /\ mip < i_levels im) ->
        d_layout d' i layer mip = d_layout d i layer mip /\ d_content d' i layer mip = d_content d i layer mip).
Proof.
  intros e g p v itype c d im next H1 H2 H3 H4.
  destruct (mips_ok e g p v itype c d H1 H2 H3 H4) as (c' & l & d' & E & X & R & F & _).
  exists d'. rewrite E. auto.
Qed.
Print Assumptions C43_whole_chain_partial.

(* What the record context knows afterwards is right too. *)
Theorem C43_tracked_after : forall e g p v itype c d,
  let im := v_image v in let next := getNextLayoutState e g c p v in
  mips_view_ok v itype -> 2 <= i_levels im -> ls_layout next <> L_UNDEFINED -> informed g c d v ->
  forall layer mip, r_layer (v_range v) <= layer < r_layer (v_range v) + r_layers (v_range v) -> mip < i_levels im ->
  let known := ls_layout (rc_getLayoutState (fst (generate_mips e g p v itype c)) im (v_type v) (level_range (i_format im) layer mip)) in
  known = L_UNDEFINED \/ known = ls_layout next.
Proof.
  intros e g p v itype c d im next H1 H2 H3 H4.
  destruct (mips_ok e g p v itype c d H1 H2 H3 H4) as (c' & l & d' & E & X & R & F & T).
  rewrite E. exact T.
Qed.
Print Assumptions C43_tracked_after.

Definition mimg (levels : N) : image := {| i_id := 3; i_width := 13; i_height := 5; i_depth := 1; i_levels := levels; i_layers := 3; i_format := 37 |}.
Definition mview (levels : N) : view :=
  mkView 7 (mimg levels) 0 VT_2D_ARRAY 37 {| r_aspect := ASPECT_COLOR; r_mip := 0; r_levels := levels; r_layer := 1; r_layers := 2 |} [].
Definition menv : env := {| e_separate := false; e_enabled := fun _ => true; e_action := fun t c _ => (c, [CUser t]) |}.
Definition mgraph (levels : N) : rgraph :=
  {| g_inputs := setLayoutState [] (mimg levels) VT_2D_ARRAY (v_range (mview levels)) (makeLayoutState L_GENERAL);
     g_outputs := setLayoutState [] (mimg levels) VT_2D_ARRAY (v_range (mview levels)) (makeLayoutState L_SHADER_READ_ONLY); g_final := new_rctx |}.
Definition mpass : rpass := marker_pass 1 [] [] false.
Definition mdevice : device := {| d_layout := fun _ _ _ => L_GENERAL; d_content := fun i l m => Before i l m |}.

Example C43_applies : mips_view_ok (mview 4) VT_2D /\ 2 <= i_levels (v_image (mview 4)) /\
  ls_layout (getNextLayoutState menv (mgraph 4) new_rctx mpass (mview 4)) = L_SHADER_READ_ONLY /\ informed (mgraph 4) new_rctx mdevice (mview 4) /\
  length (snd (generate_mips menv (mgraph 4) mpass (mview 4) VT_2D new_rctx)) = 26%nat.
Proof.
  split; [unfold mips_view_ok, mview, mimg; cbn; repeat split; (lia || (intro; discriminate))|].
  split; [cbn; lia|]. split; [vm_compute; reflexivity|]. split; [|vm_compute; reflexivity].
  intros layer Hl. cbn in Hl. assert (layer = 1 \/ layer = 2) as Hc by lia.
  split; [|split].
  - destruct Hc; subst layer; vm_compute; reflexivity.
  - vm_compute. discriminate.
  - intros mip Hm. left. reflexivity.
Qed.

(* False for an image with a single level: the level stays in TRANSFER_SRC. *)
Theorem C43_single_level_refuted : exists e g p v itype c d,
  let im := v_image v in let next := getNextLayoutState e g c p v in
  mips_view_ok v itype /\ ls_layout next <> L_UNDEFINED /\ informed g c d v /\
  exists d' layer, execute_all im d (snd (generate_mips e g p v itype c)) = Some d' /\
    r_layer (v_range v) <= layer < r_layer (v_range v) + r_layers (v_range v) /\
    d_layout d' (i_id im) layer 0 <> ls_layout next.
Proof.
  exists menv, (mgraph 1), mpass, (mview 1), VT_2D, new_rctx, mdevice. cbv zeta.
  split; [unfold mips_view_ok, mview, mimg; cbn; repeat split; (lia || (intro; discriminate))|].
  split; [vm_compute; discriminate|]. split.
  - intros layer Hl. cbn in Hl. assert (layer = 1 \/ layer = 2) as Hc by lia.
    split; [|split].
    + destruct Hc; subst layer; vm_compute; reflexivity.
    + vm_compute. discriminate.
    + intros mip Hm. cbn in Hm. lia.
  - destruct (execute_all (v_image (mview 1)) mdevice (snd (generate_mips menv (mgraph 1) mpass (mview 1) VT_2D new_rctx))) as [d'|] eqn:E.
    + exists d', 1. split; [reflexivity|]. split; [cbn; lia|].
      assert (Q : match execute_all (v_image (mview 1)) mdevice (snd (generate_mips menv (mgraph 1) mpass (mview 1) VT_2D new_rctx)) with
                  | Some x => d_layout x (i_id (v_image (mview 1))) 1 0 | None => 0 end = L_TRANSFER_SRC) by (vm_compute; reflexivity).
      rewrite E in Q. rewrite Q. vm_compute. discriminate.
    + exfalso. assert (Q : match execute_all (v_image (mview 1)) mdevice (snd (generate_mips menv (mgraph 1) mpass (mview 1) VT_2D new_rctx)) with Some _ => true | None => false end = true) by (vm_compute; reflexivity).
      rewrite E in Q. discriminate.
Qed.
Print Assumptions C43_single_level_refuted.

(** C43, synchronisation, for images with at least two levels and a next use that is not a transfer write: no command reads or
    writes a level before the previous transfers to it are waited for, and every level ends with the accesses and the stages of
    the next use possible, its last write being available. *)
Theorem C43_transfers_synchronised_partial : forall e g p v itype c z,
  let im := v_image v in let next := getNextLayoutState e g c p v in
  mips_view_ok v itype -> 2 <= i_levels im -> ls_layout next <> L_UNDEFINED -> ls_layout next <> L_TRANSFER_DST ->
  (ls_layout next = L_TRANSFER_SRC -> has A_TRANSFER_READ (ps_access (ls_state next)) = true) -> prepared g c z v ->
  exists z', synchronise_all im z (snd (generate_mips e g p v itype c)) = Some z' /\
    (forall layer mip, r_layer (v_range v) <= layer < r_layer (v_range v) + r_layers (v_range v) -> mip < i_levels im ->
        z_pending z' layer mip <> WrittenBy /\ has (z_access z' layer mip) (ps_access (ls_state next)) = true /\
        has (z_stage z' layer mip) (ps_stage (ls_state next)) = true) /\
    (forall layer mip, ~ (r_layer (v_range v) <= layer < r_layer (v_range v) + r_layers (v_range v) /\ mip < i_levels im) ->
        z_access z' layer mip = z_access z layer mip /\ z_stage z' layer mip = z_stage z layer mip /\ z_pending z' layer mip = z_pending z layer mip).
Proof. intros e g p v itype c z im next H1 H2 H3 H4 H5 H6. exact (mips_sync e g p v itype c z H1 H2 (conj H3 (conj H4 H5)) H6). Qed.
Print Assumptions C43_transfers_synchronised_partial.
Definition mhazard : hazard := {| z_access := fun _ _ => A_SHADER_READ; z_stage := fun _ _ => S_COMPUTE; z_pending := fun _ _ => Idle |}.
Example C43_synchronised_applies : prepared (mgraph 4) new_rctx mhazard (mview 4) /\
  let next := getNextLayoutState menv (mgraph 4) new_rctx mpass (mview 4) in
  ls_layout next = L_SHADER_READ_ONLY /\ ps_access (ls_state next) = A_SHADER_READ /\ ps_stage (ls_state next) = S_FRAGMENT.
Proof.
  split; [|vm_compute; auto]. intros layer Hl. cbn in Hl. split; [reflexivity|].
  assert (layer = 1 \/ layer = 2) as Hc by lia. split; [|split].
  - destruct Hc; subst layer; vm_compute; discriminate.
  - destruct Hc; subst layer; vm_compute; discriminate.
  - intros mip _. cbv zeta. intro E. exfalso. revert E. unfold rc_getLayoutState, getLayoutState. cbn. discriminate.
Qed.
(* Without the barrier between a write and the next read, the commands are refused. *)
Example C43_missing_barrier_refused :
  let l := snd (generate_mips menv (mgraph 4) mpass (mview 4) VT_2D new_rctx) in
  match synchronise_all (v_image (mview 4)) mhazard l with Some _ => True | None => False end /\
  synchronise_all (v_image (mview 4)) mhazard (firstn 4 l ++ skipn 5 l) = None.
Proof. vm_compute. auto. Qed.
