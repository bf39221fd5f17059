(* C09-C14: layout tracking. *)
From Verif Require Import Spec_Layout Proof_Layout.
Local Open Scope N_scope.

Definition img (i : N) : image := {| i_id := i; i_width := 16; i_height := 16; i_depth := 1; i_levels := 5; i_layers := 6; i_format := 37 |}.
Definition img3d : image := {| i_id := 9; i_width := 16; i_height := 16; i_depth := 4; i_levels := 5; i_layers := 1; i_format := 37 |}.
Definition rng (mip levels layer layers : N) : srange :=
  {| r_aspect := ASPECT_COLOR; r_mip := mip; r_levels := levels; r_layer := layer; r_layers := layers |}.

(** C09. *)
Theorem C09_layout_round_trip : forall h im vt vt' r r' s,
  vt <> VT_3D -> vt' <> VT_3D -> valid_range r -> valid_range r' -> sub_range r' r ->
  getLayoutState (setLayoutState h im vt r s) im vt' r' = s.
Proof. exact set_get_not3d. Qed.
Print Assumptions C09_layout_round_trip.
Example C09_applies : valid_range (rng 0 5 0 6) /\ valid_range (rng 1 2 3 2) /\ sub_range (rng 1 2 3 2) (rng 0 5 0 6).
Proof. unfold valid_range, sub_range, in_range, rng; simpl; repeat split; lia. Qed.

(** C10. *)
Theorem C10_frame_disjoint_range : forall h im vt vt' r r' s,
  vt <> VT_3D -> vt' <> VT_3D -> valid_range r -> valid_range r' -> disjoint_ranges r' r ->
  (exists m, mfind (i_id im) h = Some m) ->
  getLayoutState (setLayoutState h im vt r s) im vt' r' = getLayoutState h im vt' r'.
Proof. exact set_frame_range. Qed.
Print Assumptions C10_frame_disjoint_range.

Theorem C10_frame_layout_and_access : forall h im vt vt' r r' s,
  vt <> VT_3D -> vt' <> VT_3D -> valid_range r -> valid_range r' -> disjoint_ranges r' r ->
  ls_layout (getLayoutState (setLayoutState h im vt r s) im vt' r') = ls_layout (getLayoutState h im vt' r') /\
  ps_access (ls_state (getLayoutState (setLayoutState h im vt r s) im vt' r')) = ps_access (ls_state (getLayoutState h im vt' r')).
Proof. exact set_frame_layout. Qed.
Print Assumptions C10_frame_layout_and_access.

Theorem C10_frame_other_image : forall h im im' vt vt' r r' s,
  i_id im' <> i_id im ->
  getLayoutState (setLayoutState h im vt r s) im' vt' r' = getLayoutState h im' vt' r'.
Proof. exact set_frame_image. Qed.
Print Assumptions C10_frame_other_image.
Example C10_applies : disjoint_ranges (rng 0 1 0 1) (rng 1 4 0 6) /\
  exists m, mfind (i_id (img 1)) (setLayoutState [] (img 1) VT_2D (rng 0 1 0 1) (makeLayoutState L_GENERAL)) = Some m.
Proof.
  split; [unfold disjoint_ranges, in_range, rng; simpl; lia|]. eexists. vm_compute. reflexivity.
Qed.

(** C10: the stage of an unknown range is not stable: it is BOTTOM_OF_PIPE while the image is unknown
    and HOST as soon as another range of it is known. *)
Theorem C10_frame_stage_refuted : exists h im vt r r' s,
  vt <> VT_3D /\ valid_range r /\ valid_range r' /\ disjoint_ranges r' r /\
  getLayoutState (setLayoutState h im vt r s) im vt r' <> getLayoutState h im vt r'.
Proof.
  exists [], (img 1), VT_2D, (rng 1 4 0 6), (rng 0 1 0 1), (makeLayoutState L_GENERAL).
  unfold valid_range, disjoint_ranges, in_range, rng; simpl.
  split; [discriminate|]. repeat split; try lia. vm_compute. discriminate.
Qed.
Print Assumptions C10_frame_stage_refuted.

(** C11. *)
Theorem C11_mixed_range_summary : forall h im vt r,
  valid_range r -> vt <> VT_3D ->
  match mfind (i_id im) h with
  | None => getLayoutState h im vt r = mk_lstate L_UNDEFINED 0 S_BOTTOM
  | Some m => is_summary (tracked_list m r) (getLayoutState h im vt r)
  end.
Proof. exact handler_get_summary. Qed.
Print Assumptions C11_mixed_range_summary.
Example C11_mixed :
  let h := setLayoutState (setLayoutState [] (img 1) VT_2D (rng 0 1 0 1) (makeLayoutState L_SHADER_READ_ONLY))
                          (img 1) VT_2D (rng 1 1 0 1) (makeLayoutState L_COLOR_ATTACHMENT) in
  getLayoutState h (img 1) VT_2D (rng 0 2 0 1) = makeLayoutState L_COLOR_ATTACHMENT.
Proof. vm_compute. reflexivity. Qed.

(** C12: false, the aspect is not part of the tracking. *)
Theorem C12_aspects_independent_refuted : exists h im r r' s,
  r_aspect r = ASPECT_DEPTH /\ r_aspect r' = ASPECT_STENCIL /\
  getLayoutState (setLayoutState h im VT_2D r s) im VT_2D r' <> getLayoutState h im VT_2D r'.
Proof.
  set (rd := {| r_aspect := ASPECT_DEPTH; r_mip := 0; r_levels := 1; r_layer := 0; r_layers := 1 |}).
  set (rs := {| r_aspect := ASPECT_STENCIL; r_mip := 0; r_levels := 1; r_layer := 0; r_layers := 1 |}).
  exists (setLayoutState [] (img 1) VT_2D rs (makeLayoutState L_STENCIL_READ_ONLY)), (img 1), rd, rs, (makeLayoutState L_DEPTH_ATTACHMENT).
  repeat split. vm_compute. discriminate.
Qed.
Print Assumptions C12_aspects_independent_refuted.

(** C12: what holds instead: two ranges that differ in their aspects only are the same range. *)
Theorem C12_aspect_ignored_partial : forall h im vt r s a,
  let r' := {| r_aspect := a; r_mip := r_mip r; r_levels := r_levels r; r_layer := r_layer r; r_layers := r_layers r |} in
  setLayoutState h im vt r' s = setLayoutState h im vt r s /\ getLayoutState h im vt r' = getLayoutState h im vt r.
Proof. exact (fun h im vt r s a => conj (aspect_ignored_set h im vt r s a) (aspect_ignored_get h im vt r a)). Qed.
Print Assumptions C12_aspect_ignored_partial.

(** C13: false for mip levels at which the depth shifts to 0. *)
Theorem C13_3d_round_trip_refuted : exists h im r s,
  valid_range r /\ r_levels r = 1 /\ r_mip r < i_levels im /\
  getLayoutState (setLayoutState h im VT_3D r s) im VT_3D r <> s.
Proof.
  exists [], img3d, (rng 3 1 0 1), (makeLayoutState L_GENERAL).
  unfold valid_range; simpl. repeat split; try lia. vm_compute. discriminate.
Qed.
Print Assumptions C13_3d_round_trip_refuted.

(** C13: and the slices of a 3D view of several, but not all, levels are not tracked together. *)
Theorem C13_slices_shared_refuted : exists h im r r' s,
  valid_range r /\ valid_range r' /\ r_layer r' + r_layers r' <= N.shiftr (i_depth im) (r_mip r') /\
  r_mip r <= r_mip r' /\ r_mip r' + r_levels r' <= r_mip r + r_levels r /\ r_mip r + r_levels r <= i_levels im /\
  getLayoutState (setLayoutState h im VT_3D r s) im VT_2D r' <> s.
Proof.
  exists [], img3d, (rng 0 2 0 1), (rng 0 1 2 1), (makeLayoutState L_GENERAL).
  unfold valid_range; simpl. repeat split; try lia; vm_compute; discriminate.
Qed.
Print Assumptions C13_slices_shared_refuted.

Theorem C13_3d_round_trip_partial : forall h im r s,
  valid_range r -> i_depth im < 2 ^ 32 -> 0 < N.shiftr (i_depth im) (r_mip r) ->
  getLayoutState (setLayoutState h im VT_3D r s) im VT_3D r = s.
Proof. exact set_get_3d. Qed.
Print Assumptions C13_3d_round_trip_partial.

Theorem C13_slices_shared_partial : forall h im vt r r' s,
  valid_range r -> valid_range r' -> i_depth im < 2 ^ 32 -> 0 < N.shiftr (i_depth im) (r_mip r) -> vt <> VT_3D ->
  (r_levels r = 1 \/ r_levels r = i_levels im) ->
  r_mip r <= r_mip r' -> r_mip r' + r_levels r' <= r_mip r + r_levels r ->
  r_layer r' + r_layers r' <= N.shiftr (i_depth im) (r_mip r) ->
  getLayoutState (setLayoutState h im VT_3D r s) im vt r' = s.
Proof. exact set_get_slices. Qed.
Print Assumptions C13_slices_shared_partial.
Example C13_applies : valid_range (rng 1 1 0 1) /\ 0 < N.shiftr (i_depth img3d) 1 /\ valid_range (rng 1 1 1 1).
Proof. unfold valid_range; simpl; repeat split; lia. Qed.

(** C14: false at the granularity of subresources: the import is done per image. *)
Theorem C14_import_complete_refuted : exists h d im r s,
  valid_range r /\ ls_layout (getLayoutState h im VT_2D r) = L_UNDEFINED /\
  getLayoutState d im VT_2D r = s /\ ls_layout s <> L_UNDEFINED /\
  ls_layout (getLayoutState (addStates h d) im VT_2D r) = L_UNDEFINED.
Proof.
  exists (setLayoutState [] (img 1) VT_2D (rng 0 1 0 1) (makeLayoutState L_GENERAL)),
         (setLayoutState [] (img 1) VT_2D (rng 1 1 0 1) (makeLayoutState L_GENERAL)),
         (img 1), (rng 1 1 0 1), (makeLayoutState L_GENERAL).
  unfold valid_range; simpl. repeat split; try lia. vm_compute. discriminate.
Qed.
Print Assumptions C14_import_complete_refuted.

(** C14: per image: known images keep their states, and the first import that knows an image wins. *)
Theorem C14_import_first_wins_partial : forall datas h q,
  mfind q (fold_left addStates datas h) =
  fold_left (fun acc d => match acc with Some m => Some m | None => mfind q d end) datas (mfind q h).
Proof. exact import_all_find. Qed.
Print Assumptions C14_import_first_wins_partial.

Theorem C14_import_keeps_known_partial : forall h data im vt r,
  (exists m, mfind (i_id im) h = Some m) ->
  getLayoutState (addStates h data) im vt r = getLayoutState h im vt r.
Proof. exact import_known. Qed.
Print Assumptions C14_import_keeps_known_partial.

Theorem C14_import_unknown_partial : forall h data im vt r,
  mfind (i_id im) h = None ->
  getLayoutState (addStates h data) im vt r = getLayoutState data im vt r.
Proof. exact import_unknown. Qed.
Print Assumptions C14_import_unknown_partial.
