(* Model of the export of the graph of passes to the DOT language.
   Sources: source/RenderGraph/DotExport.cpp:255-855, source/RenderGraph/GraphNode.cpp:15-24, 89-94, FrameGraph.cpp:216-233.
   Simplifications: the text is a list of lines; indentation, colours, ids and shapes are not represented; the transitions of one edge
   are written in the order of the node (the code sorts them by name).  The recursion of the visitor is on fuel. *)
From Verif Require Export Model_Deps.
From Coq Require Export String Permutation.
Local Open Scope N_scope.

(* FramePassGroup const *: the identifiers of the group and of its parents, innermost first; [] is the null pointer.  The parent of a
   group is the tail of the list. *)
Definition gpath := list N.
(* The names: FramePassNode::getName (FramePass::getGroupName), FramePassGroup::getName, Attachment::name, and the names of views and buffers;
   and the group of each pass. *)
Record names := {
  nm_pass : N -> string; nm_group : gpath -> string; nm_attach : attach -> string; nm_view : view -> string; nm_buffer : list N -> string;
  nm_of : N -> gpath }.
(* DotExport.hpp: Config *)
Record config := { cf_groups : bool; cf_split : bool }.

Inductive line :=
| LDigraph (name : string)                 (* digraph "name" { ; digraph { *)
| LCluster (group : gpath) (name : string) (* subgraph cluster_id { label="name" *)
| LClose
| LNode (name : string)
| LEdge (from to label : string).

(* DotExport.cpp:255-429: FramePassGroupStreams: m_nodes and m_stream of each group, in the order of creation; the entry of the null group is
   the outermost object, and the children of an entry are the entries whose group has this parent. *)
Record sdata := { sd_nodes : list string; sd_lines : list line }.
Definition no_sdata : sdata := {| sd_nodes := []; sd_lines := [] |}.
Definition streams := list (gpath * sdata).
Fixpoint path_eqb (a b : gpath) : bool :=
  match a, b with
  | [], [] => true | x :: a, y :: b => andb (N.eqb x y) (path_eqb a b) | _, _ => false
  end.
Definition first_streams : streams := [([], no_sdata)].
(* DotExport.cpp:294-316: find *)
Definition st_has (s : streams) (g : gpath) : bool := existsb (fun e => path_eqb (fst e) g) s.
(* DotExport.cpp:268-292: emplace, on the outermost object *)
Fixpoint st_emplace (g : gpath) (s : streams) : streams :=
  match g with
  | [] => s
  | _ :: parent => if st_has s g then s else st_emplace parent s ++ [(g, no_sdata)]
  end.
Definition st_update (g : gpath) (f : sdata -> sdata) (s : streams) : streams :=
  map (fun e => if path_eqb (fst e) g then (fst e, f (snd e)) else e) s.
Definition has_name (n : string) (l : list string) : bool := existsb (String.eqb n) l.
(* DotExport.cpp:456-478: displayNode *)
Definition displayNode (name : string) (d : sdata) : sdata :=
  if has_name name (sd_nodes d) then d else {| sd_nodes := sd_nodes d ++ [name]; sd_lines := sd_lines d ++ [LNode name] |}.
(* DotExport.cpp:487-518: displayPassNode *)
Definition displayPassNode (name : string) (g : gpath) (s : streams) : streams := st_update g (displayNode name) (st_emplace g s).
(* DotExport.cpp:520-538: displayEdge *)
Definition displayEdge (from to label : string) (d : sdata) : sdata := {| sd_nodes := sd_nodes d; sd_lines := sd_lines d ++ [LEdge from to label] |}.
(* DotExport.cpp:573-578: isIn, from the groups: [inner] is [outer] or one of its parents *)
Fixpoint isIn (inner outer : gpath) : bool :=
  orb (path_eqb outer inner) (match outer with [] => false | _ :: p => isIn inner p end).
(* DotExport.cpp:580-591: getCommonGroup *)
Fixpoint getCommonGroup (lhs rhs : gpath) : gpath :=
  if isIn lhs rhs then lhs else match lhs with [] => [] | _ :: p => getCommonGroup p rhs end.
(* DotExport.cpp:613-626, 719-733: where the lines of an edge are written *)
Definition edge_group (lhs rhs : gpath) : gpath :=
  match lhs, rhs with [], _ | _, [] => [] | _, _ => if path_eqb lhs rhs then lhs else getCommonGroup lhs rhs end.

Section Names.
  Context (nm : names).
  Definition box (a : attach) : string := ("Transition to\n" ++ nm_attach nm a)%string.
  (* DotExport.cpp:735-751: the lines of one transition *)
  Definition transition_lines (from to : string) (a : attach) (label : string) (d : sdata) : sdata :=
    displayEdge (box a) to label (displayEdge from (box a) label (displayNode (box a) d)).
  (* DotExport.cpp:698-752: printEdge; None is the failed assertion of getInputAttaches *)
  Definition printEdge (g : graph) (lhs rhs : N) (s : streams) : option streams :=
    match getInputAttaches g rhs (Some lhs) with
    | None => None
    | Some tr =>
        let s := displayPassNode (nm_pass nm lhs) (nm_of nm lhs) s in
        let s := displayPassNode (nm_pass nm rhs) (nm_of nm rhs) s in
        let write d :=
          let d := fold_left (fun d t => transition_lines (nm_pass nm lhs) (nm_pass nm rhs) (t_in t) (nm_view nm (t_data t)) d) (as_views tr) d in
          fold_left (fun d t => transition_lines (nm_pass nm lhs) (nm_pass nm rhs) (t_in t) (nm_buffer nm (t_data t)) d) (as_buffers tr) d in
        Some (st_update (edge_group (nm_of nm lhs) (nm_of nm rhs)) write s)
    end.
  (* DotExport.cpp:777-791: visitFramePassNode.  The state is m_visited and the streams; None is the failed assertion or the end of fuel. *)
  Fixpoint visit (fuel : nat) (g : graph) (n : N) (s : list N * streams) : option (list N * streams) :=
    match fuel with
    | O => None
    | S fuel =>
        fold_left (fun s next =>
          match s with
          | None => None
          | Some (visited, st) =>
              match printEdge g n next st with
              | None => None
              | Some st => if existsb (N.eqb next) visited then Some (visited, st) else visit fuel g next (visited, st)
              end
          end) (getNext g (Some n)) (Some (n :: fst s, snd s))
    end.
  (* DotExport.cpp:763-775: visitRootNode, before the writing *)
  Definition visitRoot (fuel : nat) (g : graph) : option streams :=
    option_map snd (fold_left (fun s next => match s with None => None | Some s => visit fuel g next s end) (getNext g None) (Some ([], first_streams))).

  (* DotExport.hpp: DisplayResult, a std::map from names to texts *)
  Definition display := list (string * list line).
  Definition dhas (k : string) (m : display) : bool := existsb (fun e => String.eqb (fst e) k) m.
  Fixpoint dnew (k : string) (l : list line) (m : display) : display :=
    match m with
    | [] => [(k, l)]
    | (k', l') :: r => match String.compare k k' with Gt => (k', l') :: dnew k l r | _ => (k, l) :: m end
    end.
  (* try_emplace, then write at the end of the text *)
  Definition dput (k : string) (l : list line) (m : display) : display :=
    if dhas k m then map (fun e => if String.eqb (fst e) k then (fst e, (snd e ++ l)%list) else e) m else dnew k l m.
  Definition dget (k : string) (m : display) : list line := match find (fun e => String.eqb (fst e) k) m with Some e => snd e | None => [] end.
  Definition st_children (s : streams) (g : gpath) : list gpath := map fst (filter (fun e => match fst e with [] => false | _ :: p => path_eqb p g end) s).
  Definition st_lines (s : streams) (g : gpath) : list line := match find (fun e => path_eqb (fst e) g) s with Some e => sd_lines (snd e) | None => [] end.
  Definition group_name (g : gpath) : string := match g with [] => EmptyString | _ => nm_group nm g end.
  (* DotExport.cpp:318-400: write; the recursion is on the depth of the groups *)
  Fixpoint st_write (depth : nat) (cf : config) (s : streams) (g : gpath) (global : list line) (m : display) : display :=
    match depth with
    | O => m
    | S depth =>
        if cf_split cf then
          let m := match g with [] => m | _ => dput (group_name g) (LDigraph (group_name g) :: st_lines s g ++ [LClose])%list m end in
          fold_left (fun m c => st_write depth cf s c [] m) (st_children s g) m
        else
          let m := dput (group_name g) (match g with
                                        | [] => [LDigraph EmptyString]
                                        | _ => if cf_groups cf then [LCluster g (group_name g)] else []
                                        end) m in
          let m := fold_left (fun m c => let m := st_write depth cf s c [] m in dput (group_name g) (dget (group_name c) m) m) (st_children s g) m in
          dput (group_name g) (st_lines s g ++ match g with
                                               | [] => global ++ [LClose]
                                               | _ => if cf_groups cf then [LClose] else []
                                               end)%list m
    end.
  Definition max_depth (s : streams) : nat := fold_left (fun n e => Nat.max n (List.length (fst e))) s 0%nat.
  (* DotExport.cpp:798-805: displayPasses *)
  Definition displayPasses (fuel : nat) (cf : config) (g : graph) : option display :=
    match visitRoot fuel g with
    | Some s => Some (st_write (S (max_depth s)) cf s [] [] [])
    | None => None
    end.
  (* DotExport.cpp:815-836: displayPasses to a stream *)
  Definition displayPasses_to (fuel : nat) (cf : config) (g : graph) : option (list line) :=
    option_map (fun m => if cf_split cf then List.concat (map snd (filter (fun e => negb (String.eqb (fst e) EmptyString)) m)) else dget EmptyString m)
               (displayPasses fuel cf g).

  (* DotExport.cpp:540-560: displayAttachPass *)
  Definition displayAttachPass (a : attach) (s : streams) : streams :=
    match at_pass a with
    | Some p => displayPassNode (nm_pass nm p) (nm_of nm p) s
    | None => displayPassNode "ExternalSource" [] s
    end.
  (* DotExport.cpp:593-643: displayTransitionEdge.  The lines of a transition with an end outside of the graph go to the text given by the
     caller, with the set of nodes of the outermost object (two passes always have the default group in common).  [label] is the name of the view or of the buffer. *)
  Definition long_box (src dst : attach) : string := (nm_attach nm src ++ "\ntransition to\n" ++ nm_attach nm dst)%string.
  Definition end_name (a : attach) (external : string) : string := match at_pass a with Some p => nm_pass nm p | None => external end.
  Definition end_group (a : attach) : gpath := match at_pass a with Some p => nm_of nm p | None => [] end.
  Definition displayTransitionEdge (src dst : attach) (label : string) (x : streams * list line) : streams * list line :=
    let '(s, global) := x in
    let name := long_box src dst in
    let from := end_name src "ExternalSource" in
    let to := end_name dst "ExternalDestination" in
    match edge_group (end_group src) (end_group dst) with
    | [] =>
        let d := displayEdge name to label (displayEdge from name label (displayNode name
                   {| sd_nodes := match find (fun e => path_eqb (fst e) []) s with Some e => sd_nodes (snd e) | None => [] end; sd_lines := [] |})) in
        (st_update [] (fun d0 => {| sd_nodes := sd_nodes d; sd_lines := sd_lines d0 |}) s, (global ++ sd_lines d)%list)
    | g => (st_update g (fun d => displayEdge name to label (displayEdge from name label (displayNode name d))) s, global)
    end.
  (* DotExport.cpp:645-679: submit of the transitions; 807-813: displayTransitions *)
  Definition transition_streams (t : attaches) : streams * list line :=
    let s := fold_left (fun s t => displayAttachPass (t_in t) (displayAttachPass (t_out t) s)) (as_views t) first_streams in
    let s := fold_left (fun s t => displayAttachPass (t_in t) (displayAttachPass (t_out t) s)) (as_buffers t) s in
    let x := fold_left (fun x t => displayTransitionEdge (t_out t) (t_in t) (nm_view nm (t_data t)) x) (as_views t) (s, []) in
    fold_left (fun x t => displayTransitionEdge (t_out t) (t_in t) (nm_buffer nm (t_data t)) x) (as_buffers t) x.
  Definition displayTransitions (cf : config) (t : attaches) : display :=
    let '(s, global) := transition_streams t in st_write (S (max_depth s)) cf s [] global [].
  (* DotExport.cpp:838-850: displayTransitions to a stream *)
  Definition displayTransitions_to (cf : config) (t : attaches) : list line := List.concat (map snd (displayTransitions cf t)).
End Names.

(* FrameGraph.cpp:211-233, RunnableGraph.hpp:95-98: getTransitions *)
Definition graph_transitions (w : world) : attaches :=
  {| as_views := b_all (allTransitions view_traits w d_images w); as_buffers := b_all (allTransitions buffer_traits w d_buffers w) |}.

(* GraphNode.cpp:15-24, 89-94, FrameGraph.cpp:216-233, RunnableGraph.cpp:178-189: the input transitions are kept in maps whose keys are the
   addresses of the previous nodes; the root node is a variable of compile, then moved to a member of the runnable graph.  [addr] gives the
   addresses of the pass nodes, [local] the one of the variable; getInputAttaches is given an address. *)
Definition node_address (addr : N -> N) (local : N) (n : node) : N := match n with Some i => addr i | None => local end.
Definition inputAttaches_at (addr : N -> N) (local : N) (g : graph) (n : N) (prev : N) : option attaches :=
  match filter (fun e => andb (N.eqb (fst e) n) (N.eqb (node_address addr local (fst (snd e))) prev)) (gr_inputs g) with
  | (_, (_, a)) :: _ => Some a | [] => None
  end.
