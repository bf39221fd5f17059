(* Specification of the configurations, for C103: which calls give a value to an option, and the value an option takes after a
   sequence of calls. *)
From Verif Require Export Model_Config.
From Coq Require Import ZArith.
Local Open Scope N_scope.

(* [a] is the last value given for the option that the calls of [gives] set *)
Definition given {C A} (gives : C -> option A) (l : list C) (a : A) : Prop :=
  exists before o after, l = before ++ o :: after /\ gives o = Some a /\ forall o', In o' after -> gives o' = None.
(* The option is never set *)
Definition unset {C A} (gives : C -> option A) (l : list C) : Prop := forall o, In o l -> gives o = None.
(* What is seen of the option is the last value given, or the default when there is none *)
Definition takes {C A} (gives : C -> option A) (l : list C) (default seen : A) : Prop :=
  (forall a, given gives l a -> seen = a) /\ (unset gives l -> seen = default).

(* The options of a pipeline *)
Definition gives_programs (o : pp_call) : option (list N) := match o with PpProgram p => Some [p] | PpPrograms l => Some l | _ => None end.
Definition gives_creator (o : pp_call) : option creator := match o with PpCreator c => Some c | _ => None end.
Definition gives_layouts (o : pp_call) : option (list N) := match o with PpLayout l => Some [l] | PpLayouts l => Some l | _ => None end.
Definition gives_push (o : pp_call) : option (list N) := match o with PpPush r => Some [r] | PpPushes l => Some l | _ => None end.

(* The calls on the pipeline that count: a base configuration replaces all that was said before *)
Fixpoint pipeline_calls {C} (direct : C -> option pp_call) (base : C -> option (list pp_call)) (so_far : list pp_call) (l : list C) : list pp_call :=
  match l with
  | [] => so_far
  | o :: r => match base o, direct o with
              | Some b, _ => pipeline_calls direct base b r
              | None, Some c => pipeline_calls direct base (so_far ++ [c]) r
              | None, None => pipeline_calls direct base so_far r
              end
  end.

(* The options of a quad pass *)
Definition rq_direct (o : rq_call) : option pp_call := match o with RqPipeline c => Some c | _ => None end.
Definition rq_whole (o : rq_call) : option (list pp_call) := match o with RqBase l => Some l | _ => None end.
Definition quad_pipeline_calls (l : list rq_call) : list pp_call := pipeline_calls rq_direct rq_whole [] l.
Definition quad_texcoord (o : rq_call) : option (bool * bool) := match o with RqTexcoord t => Some t | _ => None end.
Definition quad_size (o : rq_call) : option (N * N) := match o with RqSize s => Some s | _ => None end.
Definition quad_position (o : rq_call) : option (Z * Z) := match o with RqPosition p => Some p | _ => None end.
Definition quad_depth (o : rq_call) : option N := match o with RqDepth d => Some d | _ => None end.
Definition quad_index_var (o : rq_call) : option N := match o with RqIndex p => Some p | _ => None end.
Definition quad_enabled_var (o : rq_call) : option N := match o with RqEnabled p => Some p | _ => None end.
Definition quad_isEnabled (o : rq_call) : option (getter bool) := match o with RqIsEnabled f => Some f | _ => None end.
Definition quad_record (o : rq_call) : option recorder := match o with RqRecord f => Some f | _ => None end.
Definition quad_end (o : rq_call) : option recorder := match o with RqEnd f => Some f | _ => None end.
Definition quad_instances (o : rq_call) : option N := match o with RqInstances n => Some n | _ => None end.
Definition quad_indirect (o : rq_call) : option indirect := match o with RqIndirect b => Some b | _ => None end.

(* The options of a mesh pass *)
Definition rm_direct (o : rm_call) : option pp_call := match o with RmPipeline c => Some c | _ => None end.
Definition rm_whole (o : rm_call) : option (list pp_call) := match o with RmBase l => Some l | _ => None end.
Definition mesh_pipeline_calls (l : list rm_call) : list pp_call := pipeline_calls rm_direct rm_whole [] l.
Definition mesh_size (o : rm_call) : option (N * N) := match o with RmSize s => Some s | _ => None end.
Definition mesh_position (o : rm_call) : option (Z * Z) := match o with RmPosition p => Some p | _ => None end.
Definition mesh_depth (o : rm_call) : option N := match o with RmDepth d => Some d | _ => None end.
Definition mesh_getIndex (o : rm_call) : option (getter N) := match o with RmIndex f => Some f | _ => None end.
Definition mesh_isEnabled (o : rm_call) : option (getter bool) := match o with RmIsEnabled f => Some f | _ => None end.
Definition mesh_record (o : rm_call) : option recorder := match o with RmRecord f => Some f | _ => None end.
Definition mesh_end (o : rm_call) : option recorder := match o with RmEnd f => Some f | _ => None end.
Definition mesh_vertex (o : rm_call) : option (list N) := match o with RmVertex b => Some b | _ => None end.
Definition mesh_indices (o : rm_call) : option (list N) := match o with RmIndices b => Some b | _ => None end.
Definition mesh_indirect (o : rm_call) : option indirect := match o with RmIndirect b => Some b | _ => None end.
Definition mesh_primitives (o : rm_call) : option (getter N) := match o with RmPrimitives f => Some f | _ => None end.
Definition mesh_vertices (o : rm_call) : option (getter N) := match o with RmVertices f => Some f | _ => None end.
Definition mesh_indexType (o : rm_call) : option (getter N) := match o with RmIndexType f => Some f | _ => None end.
Definition mesh_cull (o : rm_call) : option (getter N) := match o with RmCull f => Some f | _ => None end.

(* The options of a compute pass; the index comes from a variable or from a callback, whichever is given last *)
Inductive index_source := FromVariable (p : N) | FromCallback (f : getter N).
Definition cp_direct (o : cp_call) : option pp_call := match o with CpPipeline c => Some c | _ => None end.
Definition cp_whole (o : cp_call) : option (list pp_call) := match o with CpBase l => Some l | _ => None end.
Definition compute_pipeline_calls (l : list cp_call) : list pp_call := pipeline_calls cp_direct cp_whole [] l.
Definition compute_index_from (o : cp_call) : option index_source :=
  match o with CpIndex p => Some (FromVariable p) | CpGetIndex f => Some (FromCallback f) | _ => None end.
Definition compute_enabled_var (o : cp_call) : option N := match o with CpEnabled p => Some p | _ => None end.
Definition compute_isEnabled (o : cp_call) : option (getter bool) := match o with CpIsEnabled f => Some f | _ => None end.
Definition compute_recordInto (o : cp_call) : option recorder := match o with CpRecord f => Some f | _ => None end.
Definition compute_initialise (o : cp_call) : option (nat -> list N) := match o with CpInitialise f => Some f | _ => None end.
Definition compute_end (o : cp_call) : option recorder := match o with CpEnd f => Some f | _ => None end.
Definition compute_x (o : cp_call) : option N := match o with CpX n => Some n | _ => None end.
Definition compute_y (o : cp_call) : option N := match o with CpY n => Some n | _ => None end.
Definition compute_z (o : cp_call) : option N := match o with CpZ n => Some n | _ => None end.
Definition compute_getX (o : cp_call) : option (getter N) := match o with CpGetX f => Some f | _ => None end.
Definition compute_getY (o : cp_call) : option (getter N) := match o with CpGetY f => Some f | _ => None end.
Definition compute_getZ (o : cp_call) : option (getter N) := match o with CpGetZ f => Some f | _ => None end.
Definition compute_indirect (o : cp_call) : option indirect := match o with CpIndirect b => Some b | _ => None end.

(* The options common to all passes *)
Definition run_max (o : ru_call) : option nat := match o with RuMax n => Some n | _ => None end.
Definition run_resettable (o : ru_call) : option bool := match o with RuResettable b => Some b | _ => None end.
Definition run_pre (o : ru_call) : list recorder := match o with RuPre a => [a] | _ => [] end.
Definition run_post (o : ru_call) : list recorder := match o with RuPost a => [a] | _ => [] end.
(* [a] is the first action given for the view [v] *)
Definition first_action (l : list ru_call) (v : view) (a : action) : Prop :=
  exists before after, l = before ++ RuImplicit v a :: after /\ forall v' a', In (RuImplicit v' a') before -> v_id v' <> v_id v.

(* The option a call sets: two calls set different options when no observation below depends on both *)
Definition pp_kind_of (o : pp_call) : nat :=
  match o with PpProgram _ | PpPrograms _ => 0 | PpCreator _ => 1 | PpLayout _ | PpLayouts _ => 2 | PpPush _ | PpPushes _ => 3 end.
Definition pp_independent (a b : pp_call) : Prop := pp_kind_of a <> pp_kind_of b.
Definition rq_kind_of (o : rq_call) : nat :=
  match o with
  | RqPipeline _ | RqBase _ => 0 | RqTexcoord _ => 1 | RqSize _ => 2 | RqPosition _ => 3 | RqDepth _ => 4 | RqIndex _ => 5
  | RqEnabled _ => 6 | RqIsEnabled _ => 7 | RqRecord _ => 8 | RqEnd _ => 9 | RqInstances _ => 10 | RqIndirect _ => 11
  end.
Definition rq_independent (a b : rq_call) : Prop :=
  rq_kind_of a <> rq_kind_of b \/ exists x y, a = RqPipeline x /\ b = RqPipeline y /\ pp_independent x y.
Definition rm_kind_of (o : rm_call) : nat :=
  match o with
  | RmPipeline _ | RmBase _ => 0 | RmSize _ => 1 | RmPosition _ => 2 | RmDepth _ => 3 | RmIndex _ => 4 | RmIsEnabled _ => 5
  | RmRecord _ => 6 | RmEnd _ => 7 | RmVertex _ => 8 | RmIndices _ => 9 | RmIndirect _ => 10 | RmPrimitives _ => 11 | RmVertices _ => 12
  | RmIndexType _ => 13 | RmCull _ => 14
  end.
Definition rm_independent (a b : rm_call) : Prop :=
  rm_kind_of a <> rm_kind_of b \/ exists x y, a = RmPipeline x /\ b = RmPipeline y /\ pp_independent x y.
Definition cp_kind_of (o : cp_call) : nat :=
  match o with
  | CpPipeline _ | CpBase _ => 0 | CpIndex _ | CpGetIndex _ => 1 | CpEnabled _ => 2 | CpIsEnabled _ => 3 | CpRecord _ => 4
  | CpInitialise _ => 5 | CpEnd _ => 6 | CpX _ => 7 | CpY _ => 8 | CpZ _ => 9 | CpGetX _ => 10 | CpGetY _ => 11 | CpGetZ _ => 12
  | CpIndirect _ => 13
  end.
Definition cp_independent (a b : cp_call) : Prop :=
  cp_kind_of a <> cp_kind_of b \/ exists x y, a = CpPipeline x /\ b = CpPipeline y /\ pp_independent x y.
