(* Vocabulary for the exported text (C75, C76, C77). *)
From Verif Require Export Model_Dot Spec_Deps.
Local Open Scope N_scope.

(* The arrows of a text: from, to, label. *)
Definition arrows (text : list line) : list (string * string * string) :=
  flat_map (fun l => match l with LEdge a b x => [(a, b, x)] | _ => [] end) text.
(* How many times a text declares a node. *)
Definition declared (n : string) (text : list line) : nat :=
  List.length (filter (fun l => match l with LNode m => String.eqb m n | _ => false end) text).
(* The blocks of a text are closed, in the right order. *)
Inductive well_formed : list line -> Prop :=
| wf_end : well_formed []
| wf_line l r : (match l with LNode _ | LEdge _ _ _ => True | _ => False end) -> well_formed r -> well_formed (l :: r)
| wf_block o inside r : (match o with LDigraph _ | LCluster _ _ => True | _ => False end) ->
    well_formed inside -> well_formed r -> well_formed (o :: inside ++ LClose :: r)%list.
(* The text is one drawing. *)
Definition one_digraph (text : list line) : Prop := exists name inside, text = (LDigraph name :: inside ++ [LClose])%list /\ well_formed inside.

(* What the transitions of the edge from [a] to [b] look like in the drawing of the passes: an arrow from the first pass to a box named
   after the attachment of the second one, and an arrow from the box to the second pass; both are labelled with the data. *)
Definition drawn {D} (nm : names) (label : D -> string) (a b : N) (t : transition D) : list (string * string * string) :=
  let middle := ("Transition to\n" ++ nm_attach nm (t_in t))%string in
  [(nm_pass nm a, middle, label (t_data t)); (middle, nm_pass nm b, label (t_data t))].
Definition drawn_edge (nm : names) (g : graph) (a b : N) : list (string * string * string) :=
  match getInputAttaches g b (Some a) with
  | Some x => flat_map (drawn nm (nm_view nm) a b) (as_views x) ++ flat_map (drawn nm (nm_buffer nm) a b) (as_buffers x)
  | None => []
  end.
(* All the edges from a pass to a pass. *)
Definition drawn_graph (nm : names) (w : world) (g : graph) : list (string * string * string) :=
  flat_map (fun p => flat_map (drawn_edge nm g (d_id p)) (getNext g (Some (d_id p)))) w.
(* A pass has an edge from or to another pass. *)
Definition linked (g : graph) (p : N) : Prop := exists q, In q (getNext g (Some p)) \/ In p (getNext g (Some q)).

(* What the transitions look like in the drawing of the transitions. *)
Definition shown {D} (nm : names) (label : D -> string) (t : transition D) : list (string * string * string) :=
  let name e x := match at_pass e with Some p => nm_pass nm p | None => x end in
  let middle := (nm_attach nm (t_out t) ++ "\ntransition to\n" ++ nm_attach nm (t_in t))%string in
  [(name (t_out t) "ExternalSource"%string, middle, label (t_data t)); (middle, name (t_in t) "ExternalDestination"%string, label (t_data t))].
Definition shown_all (nm : names) (t : attaches) : list (string * string * string) :=
  flat_map (shown nm (nm_view nm)) (as_views t) ++ flat_map (shown nm (nm_buffer nm)) (as_buffers t).

(* The groups that hold one of the passes, directly or not. *)
Definition holds (nm : names) (ps : list N) (g : gpath) : Prop := g <> [] /\ exists p inner, In p ps /\ nm_of nm p = (inner ++ g)%list.
(* All the passes are in the default group of the graph; the groups have different names that are not empty. *)
Definition one_root (nm : names) (ps : list N) : Prop := exists d, forall p, In p ps -> exists inner, nm_of nm p = (inner ++ [d])%list.
Definition group_names_ok (nm : names) (ps : list N) : Prop :=
  (forall g, holds nm ps g -> nm_group nm g <> EmptyString) /\
  (forall g h, holds nm ps g -> holds nm ps h -> nm_group nm g = nm_group nm h -> g = h).
(* The names of the passes are different, and are not names of boxes. *)
Definition pass_names_ok (nm : names) (ps : list N) : Prop :=
  (forall p q, In p ps -> In q ps -> nm_pass nm p = nm_pass nm q -> p = q) /\
  (forall p a, In p ps -> nm_pass nm p <> ("Transition to\n" ++ nm_attach nm a)%string).
(* The labels of the blocks around each node of a text, innermost first. *)
Fixpoint nodes_in (around : list string) (text : list line) : list (string * list string) :=
  match text with
  | [] => []
  | LDigraph name :: r => nodes_in (name :: around) r
  | LCluster _ name :: r => nodes_in (name :: around) r
  | LClose :: r => nodes_in (tl around) r
  | LNode n :: r => (n, around) :: nodes_in around r
  | LEdge _ _ _ :: r => nodes_in around r
  end.
(* The names of a group and of its parents, innermost first. *)
Fixpoint group_labels (nm : names) (g : gpath) : list string := match g with [] => [] | _ :: p => nm_group nm g :: group_labels nm p end.
