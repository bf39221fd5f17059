(* Model of the inputs, outputs and final states of a graph.
   Sources: source/RenderGraph/FrameGraph.cpp:236-342, source/RenderGraph/FramePassGroup.cpp:140-193,
   include/RenderGraph/FrameGraph.hpp:71-108. *)
From Verif Require Export Model_Run.
Local Open Scope N_scope.

(* FrameGraph.hpp: the three maps of a graph just made, all empty *)
Definition new_graph : rgraph := {| g_inputs := []; g_outputs := []; g_final := new_rctx |}.

(* FrameGraph.cpp:262-271: addInput *)
Definition add_input (g : rgraph) (im : image) (vt : N) (r : srange) (s : lstate) : rgraph :=
  {| g_inputs := setLayoutState (g_inputs g) im vt r s; g_outputs := g_outputs g; g_final := g_final g |}.
(* FrameGraph.cpp:298-307: addOutput *)
Definition add_output (g : rgraph) (im : image) (vt : N) (r : srange) (s : lstate) : rgraph :=
  {| g_inputs := g_inputs g; g_outputs := setLayoutState (g_outputs g) im vt r s; g_final := g_final g |}.
(* FrameGraph.cpp:273-280, 309-316: the forms given a view *)
Definition add_input_view (g : rgraph) (v : view) (s : lstate) : rgraph := add_input g (v_image v) (v_type v) (v_range v) s.
Definition add_output_view (g : rgraph) (v : view) (s : lstate) : rgraph := add_output g (v_image v) (v_type v) (v_range v) s.
(* FramePassGroup.cpp:157-193: the forms of a group *)
Definition group_add_input (g : rgraph) (im : image) (vt : N) (r : srange) (s : lstate) : rgraph := add_input g im vt r s.
Definition group_add_input_view (g : rgraph) (v : view) (s : lstate) : rgraph := group_add_input g (v_image v) (v_type v) (v_range v) s.
Definition group_add_output (g : rgraph) (im : image) (vt : N) (r : srange) (s : lstate) : rgraph := add_output g im vt r s.
Definition group_add_output_view (g : rgraph) (v : view) (s : lstate) : rgraph := group_add_output g (v_image v) (v_type v) (v_range v) s.

(* FrameGraph.cpp:283-297, 318-332: getInputLayoutState, getOutputLayoutState *)
Definition input_state (g : rgraph) (v : view) : lstate := getLayoutState (g_inputs g) (v_image v) (v_type v) (v_range v).
Definition output_state (g : rgraph) (v : view) : lstate := getLayoutState (g_outputs g) (v_image v) (v_type v) (v_range v).

(* FrameGraph.cpp:236-241: getFinalLayoutState of a range of an image *)
Definition final_range (g : rgraph) (im : image) (vt : N) (r : srange) : lstate := rc_getLayoutState (g_final g) im vt r.
(* FrameGraph.cpp:243-254: getFinalLayoutState of a view; None where the source is indexed out of range *)
Fixpoint final_state (g : rgraph) (v : view) (index : nat) {struct v} : option lstate :=
  match v with
  | mkView _ im _ vt _ r [] => Some (final_range g im vt r)
  | mkView _ _ _ _ _ _ source =>
      (fix pick (l : list view) (i : nat) {struct l} : option lstate :=
         match l, i with
         | [], _ => None
         | w :: _, O => final_state g w 0
         | _ :: rest, S i => pick rest i
         end) source index
  end.
(* FrameGraph.cpp:256-260: getFinalAccessState; RecordContext.cpp:176-186 *)
Definition final_access (g : rgraph) (buffer : N) : pstate := getAccessState (g_final g) buffer.

(* What happens to a graph: declarations, by itself or by one of its groups, and recordings (FrameGraph.cpp:339-342 at the end of
   RunnableGraph.cpp:287-345); the passes recorded are made for the graph as it is. *)
Inductive gstep :=
| SInput (im : image) (vt : N) (r : srange) (s : lstate)
| SInputView (v : view) (s : lstate)
| SGroupInput (im : image) (vt : N) (r : srange) (s : lstate)
| SGroupInputView (v : view) (s : lstate)
| SOutput (im : image) (vt : N) (r : srange) (s : lstate)
| SOutputView (v : view) (s : lstate)
| SGroupOutput (im : image) (vt : N) (r : srange) (s : lstate)
| SGroupOutputView (v : view) (s : lstate)
| SRecord (e : env) (deps : list rctx) (passes : rgraph -> list rpass).
Definition graph_step (g : rgraph) (x : gstep) : rgraph :=
  match x with
  | SInput im vt r s => add_input g im vt r s
  | SInputView v s => add_input_view g v s
  | SGroupInput im vt r s => group_add_input g im vt r s
  | SGroupInputView v s => group_add_input_view g v s
  | SOutput im vt r s => add_output g im vt r s
  | SOutputView v s => add_output_view g v s
  | SGroupOutput im vt r s => group_add_output g im vt r s
  | SGroupOutputView v s => group_add_output_view g v s
  | SRecord e deps passes => fst (fst (record_graph e g deps (passes g)))
  end.
Definition graph_steps (l : list gstep) : rgraph := fold_left graph_step l new_graph.
