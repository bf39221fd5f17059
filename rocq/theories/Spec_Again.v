(* Specification vocabulary: the passes recorded again. *)
From Verif Require Export Model_Again Spec_Overlap.
Local Open Scope N_scope.

(* The graph and the contexts after a history, what an operation records. *)
Definition after_ops (k : again_conf) (g : rgraph) (l : list again_op) : again := fst (again_run k (new_again g) l).
Definition records (k : again_conf) (s : again) (o : again_op) : list cmd := snd (again_step k s o).
Definition is_again (o : again_op) : Prop := match o with AgAgain _ _ => True | AgRecord _ _ _ => False end.
Definition recording (o : again_op) : bool := match o with AgAgain _ _ => false | AgRecord _ _ _ => true end.
(* The commands of the recordings of the graph, in order: those its runs submit. *)
Fixpoint graph_records (k : again_conf) (s : again) (l : list again_op) : list (list cmd) :=
  match l with
  | [] => []
  | o :: r => (if recording o then [records k s o] else []) ++ graph_records k (fst (again_step k s o)) r
  end.
(* In a recording of the graph, p is given the context c; its commands are there, with those before and those after. *)
Definition recorded_from (e : env) (g : rgraph) (deps : list rctx) (passes : list rpass) (p : rpass) (c : rctx) (before after : list cmd) : Prop :=
  (exists index, In (p, c, index) (snd (record_graph e g deps passes))) /\
  snd (fst (record_graph e g deps passes)) = before ++ snd (recordInto e g p c) ++ after.

(* The layout a handler knows of a view *)
Definition layout_in (h : handler) (v : view) : N := ls_layout (getLayoutState h (v_image v) (v_type v) (v_range v)).
(* What the pass reads is known when it is recorded: from the passes before, from the declared inputs of the graph, or because the
   graph knew of it before this recording what it knows after. *)
Definition settled (g g' : rgraph) (c : rctx) (p : rpass) (a : attach) : Prop :=
  let v := attach_view a (rp_index p) in
  isInput a = true -> layout_in (rc_images c) v <> L_UNDEFINED \/ layout_in (g_inputs g) v <> L_UNDEFINED \/
    rc_getLayoutState (g_final g) (v_image v) (v_type v) (v_range v) = rc_getLayoutState (g_final g') (v_image v) (v_type v) (v_range v).
(* The views of a pass are regular, those it brings in a layout have one. *)
Definition regular_pass (e : env) (p : rpass) : Prop :=
  forall a, In a (rp_images p) -> view_ok (attach_view a (rp_index p)) /\ (has_transition a = true -> a_getImageLayout a (e_separate e) <> L_UNDEFINED).
