(* Specification vocabulary: a device that keeps a content for each aspect of each subresource of each image, and what the recorded
   commands may do to it. *)
From Verif Require Export Spec_Flow.
Local Open Scope N_scope.

(* Image, layer, level, and whether it is the stencil: some content.  The colour and the depth are the other aspect. *)
Definition contents := N -> N -> N -> bool -> N.
(* What a command may change.  A barrier whose old layout is UNDEFINED loses the contents; clears and transfers write their
   destination; the beginning of a render pass loses an aspect of an attachment when its initial layout is UNDEFINED and loses or
   clears it when its operation is not to load; the end loses it when its operation is not to store.  The draws and the
   dispatches write what the shaders of the user write, and are not considered. *)
Definition may_change (c : cmd) (im layer mip : N) (stencil : bool) : Prop :=
  let inside i r := i = im /\ in_range r layer mip in
  match c with
  | CImageBarrier i r _ _ _ _ old _ => inside i r /\ old = L_UNDEFINED
  | CClearColour i _ r | CClearDepthStencil i _ r => inside i r
  | CCopyImage _ _ dst _ _ ds _ _ => inside dst ds
  | CBlitImage _ _ dst _ _ ds _ _ _ _ _ => inside dst ds
  | CCopyRegion _ _ dst _ _ ds _ _ _ => inside dst ds
  | CBufferToImage _ _ dst _ ds _ _ => inside dst ds
  | CBeginRenderPass infos => exists w initial final ops, In (w, initial, final, ops) infos /\ inside (i_id (v_image w)) (v_range w) /\
      if stencil then has_stencil w /\ (initial = L_UNDEFINED \/ to_sload ops <> LO_LOAD) else has_main w /\ (initial = L_UNDEFINED \/ to_load ops <> LO_LOAD)
  | CEndRenderPass infos => exists w initial final ops, In (w, initial, final, ops) infos /\ inside (i_id (v_image w)) (v_range w) /\
      if stencil then has_stencil w /\ to_sstore ops <> SO_STORE else has_main w /\ to_store ops <> SO_STORE
  | _ => False
  end.
(* The contents after some commands: the ones no command may change are the same, the others can be anything. *)
Fixpoint contents_after (k : contents) (l : list cmd) (k' : contents) : Prop :=
  match l with
  | [] => k' = k
  | c :: r => exists k1, (forall im layer mip s, ~ may_change c im layer mip s -> k1 im layer mip s = k im layer mip s) /\ contents_after k1 r k'
  end.
(* A view has the same contents. *)
Definition same_contents (v : view) (k k' : contents) : Prop :=
  forall layer mip s, in_range (v_range v) layer mip -> k' (i_id (v_image v)) layer mip s = k (i_id (v_image v)) layer mip s.
