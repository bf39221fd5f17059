(* Specification vocabulary: memory dependencies between the image accesses of two passes. *)
From Verif Require Export Spec_Device.
Local Open Scope N_scope.

(* All the bits of [b] are in [a]. *)
Definition contains (a b : N) : Prop := N.land a b = b.
(* The accesses a declaration announces, and those of them that write. *)
Definition announced (m : image_method) : N :=
  N.lor (if img_reads m then read_bit (img_usage m) else 0) (if img_writes m then write_bit (img_usage m) else 0).
Definition written (m : image_method) : N := if img_writes m then write_bit (img_usage m) else 0.

(* A pipeline barrier on a view orders a first use (its stage, its writes) before a second one (its stage, its accesses). *)
Definition orders (v : view) (stage1 writes1 stage2 access2 : N) (c : cmd) : Prop :=
  match c with
  | CImageBarrier im r srcStage dstStage srcAccess dstAccess _ _ =>
      im = i_id (v_image v) /\ (forall layer mip, in_range (v_range v) layer mip -> in_range r layer mip) /\
      contains srcStage stage1 /\ contains srcAccess writes1 /\ contains dstStage stage2 /\ contains dstAccess access2
  | _ => False
  end.
(* So does an external dependency of a render pass. *)
Definition dep_orders (stage1 writes1 stage2 access2 : N) (d : pstate * pstate) : Prop :=
  contains (ps_stage (fst d)) stage1 /\ contains (ps_access (fst d)) writes1 /\ contains (ps_stage (snd d)) stage2 /\ contains (ps_access (snd d)) access2.

(* What the graph knows about a view: nothing, or the stage and accesses of its layout. *)
Definition plain_state (s : lstate) : Prop := ls_layout s = L_UNDEFINED \/ s = makeLayoutState (ls_layout s).
Definition view_state (h : handler) (v : view) : lstate := getLayoutState h (v_image v) (v_type v) (v_range v).
(* A callback that does not record anything about a view, nor implicit actions. *)
Definition leaves_view (v : view) (f : rctx -> nat -> rctx * list cmd) : Prop := forall c i,
  rc_implicit (fst (f c i)) = rc_implicit c /\ view_state (rc_images (fst (f c i))) v = view_state (rc_images c) v.
(* A pass whose attachments are views of the region of [v] or have nothing in common with it, are separate from each other, and that
   records nothing about [v] by itself. *)
Definition plain_pass (v : view) (p : rpass) : Prop :=
  (forall w, In w (pass_views p) -> view_ok w /\ (same_region w v \/ separate_views w v)) /\
  pairwise (fun a b => separate_views (attach_view a (rp_index p)) (attach_view b (rp_index p))) (rp_images p) /\
  (forall f, In f (rp_pre p) \/ In f (rp_post p) \/ f = rp_record p -> leaves_view v f) /\ rp_implicit p = [].
