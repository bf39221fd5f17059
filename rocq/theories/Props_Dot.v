(* C75, C76, C77: the drawings of the graph. *)
From Verif Require Import Spec_Dot Proof_Deps Proof_Graph Proof_Graph2 Proof_Dot Proof_Dot2 Proof_Dot3 Proof_Dot4 Proof_Dot5 Proof_Dot6 Proof_Dot7 Proof_Dot8 Proof_Dot9 Props_Deps.
From Coq Require Import Lia.
Local Open Scope N_scope.

(** C75: the drawing of the passes shows every transition of every edge between passes once, and declares every pass that has an edge once,
    in one text or in one text per group. *)
Theorem C75_every_edge_is_drawn_once_partial : forall nm w cf fuel, compiled_order w -> ids_ok w -> well_declared w ->
  group_names_ok nm (map d_id w) -> one_root nm (map d_id w) -> (List.length w <= fuel)%nat ->
  exists text, displayPasses_to nm fuel cf (compileGraph w) = Some text /\ well_formed text /\ (cf_split cf = false -> one_digraph text) /\
    Permutation (arrows text) (drawn_graph nm w (compileGraph w)) /\
    (pass_names_ok nm (map d_id w) -> forall p, In p w ->
       (linked (compileGraph w) (d_id p) -> declared (nm_pass nm (d_id p)) text = 1%nat) /\
       (~ linked (compileGraph w) (d_id p) -> declared (nm_pass nm (d_id p)) text = 0%nat)).
Proof.
  intros nm w cf fuel Ho Hi Hd Hg Hr Hf. destruct (streams_ok nm w fuel Ho Hi Hd Hf) as (es & st & V & P & D).
  unfold displayPasses_to, displayPasses. rewrite V. cbn [option_map]. destruct (cf_split cf) eqn:Sp.
  - destruct (split_all nm (map d_id w) cf st _ [] (dr_base _ _ _ _ _ D) Hg Sp (dr_root _ _ _ _ _ D Hr)) as [W L]. cbv zeta in *.
    eexists. split; [reflexivity|]. split; [exact W|]. split; [discriminate|]. exact (lines_drawing nm w st es _ Ho Hi Hd P D L).
  - destruct (whole_text nm (map d_id w) cf st _ [] (dr_base _ _ _ _ _ D) Hg Sp (Forall_nil _)) as [W L]. cbv zeta in *. rewrite app_nil_r in L.
    eexists. split; [reflexivity|]. split.
    + destruct W as (n & i & E & Wi). rewrite E. apply wf_wrap; [exact I|exact Wi].
    + split; [intros _; exact W|]. exact (lines_drawing nm w st es _ Ho Hi Hd P D L).
Qed.
Print Assumptions C75_every_edge_is_drawn_once_partial.

Definition ex_group (p : N) : gpath := if N.eqb p 3 then [1] else [2; 1].
Definition ex_names (group : N -> gpath) (inner : string) : names :=
  {| nm_pass := fun p => if N.eqb p 1 then "A/p1"%string else if N.eqb p 2 then "A/p2"%string else "graph/p3"%string;
     nm_group := fun g => match g with [_] => "graph"%string | _ => inner end;
     nm_attach := fun a => match at_pass a with Some p => if N.eqb p 1 then "a1"%string else if N.eqb p 2 then "a2"%string else "a3"%string | None => EmptyString end;
     nm_view := fun v => if N.eqb (v_id v) 1 then "v1"%string else "v2"%string; nm_buffer := fun _ => "b"%string; nm_of := group |}.
Definition ex_names_ok : names := ex_names ex_group "A".
Lemma suffix_cases (x y : N) q g : ([x; y] = q ++ g)%list -> g = [] \/ g = [y] \/ g = [x; y].
Proof. destruct q as [|a [|b [|c q]]]; cbn; intro H; [right; right; congruence|right; left; congruence|left; congruence|discriminate]. Qed.
Lemma suffix_case (y : N) q g : ([y] = q ++ g)%list -> g = [] \/ g = [y].
Proof. destruct q as [|b [|c q]]; cbn; intro H; [right; congruence|left; congruence|discriminate]. Qed.
Lemma ex_holds inner g : Spec_Dot.holds (ex_names ex_group inner) [1; 2; 3] g -> g = [1] \/ g = [2; 1].
Proof.
  intros (Hn & p & q & Hp & E). cbn [nm_of ex_names] in E. destruct Hp as [<-|[<-|[<-|[]]]]; cbn in E.
  - destruct (suffix_cases _ _ _ _ E) as [H|[H|H]]; auto; congruence.
  - destruct (suffix_cases _ _ _ _ E) as [H|[H|H]]; auto; congruence.
  - destruct (suffix_case _ _ _ E) as [H|H]; auto; congruence.
Qed.
Lemma ex_groups_ok : group_names_ok ex_names_ok (map d_id ex_world).
Proof.
  split; [intros g H; destruct (ex_holds _ g H) as [-> | ->]; discriminate|].
  intros g h H H'. destruct (ex_holds _ g H) as [-> | ->], (ex_holds _ h H') as [-> | ->]; cbn; intro E; try reflexivity; discriminate.
Qed.
Lemma ex_root : one_root ex_names_ok (map d_id ex_world).
Proof. exists 1. intros p [<-|[<-|[<-|[]]]]; [exists [2]|exists [2]|exists []]; reflexivity. Qed.
Lemma ex_pass_names : pass_names_ok ex_names_ok (map d_id ex_world).
Proof.
  split.
  - intros p q [<-|[<-|[<-|[]]]] [<-|[<-|[<-|[]]]]; cbn; intro E; try reflexivity; discriminate.
  - intros p a [<-|[<-|[<-|[]]]]; cbn; discriminate.
Qed.
Example C75_applies : compiled_order ex_world /\ ids_ok ex_world /\ well_declared ex_world /\ group_names_ok ex_names_ok (map d_id ex_world) /\
  one_root ex_names_ok (map d_id ex_world) /\ pass_names_ok ex_names_ok (map d_id ex_world) /\
  displayPasses_to ex_names_ok 3 {| cf_groups := true; cf_split := false |} (compileGraph ex_world) = Some
    [LDigraph ""; LCluster [1] "graph"; LCluster [2; 1] "A"; LNode "A/p1"; LClose; LNode "graph/p3"; LNode "Transition to\na3";
     LEdge "A/p1" "Transition to\na3" "v1"; LEdge "Transition to\na3" "graph/p3" "v1"; LClose; LClose]%string /\
  displayPasses_to ex_names_ok 3 {| cf_groups := true; cf_split := true |} (compileGraph ex_world) = Some
    [LDigraph "A"; LNode "A/p1"; LClose; LDigraph "graph"; LNode "graph/p3"; LNode "Transition to\na3";
     LEdge "A/p1" "Transition to\na3" "v1"; LEdge "Transition to\na3" "graph/p3" "v1"; LClose]%string.
Proof.
  split; [apply ex_world_ok|]. split; [apply ex_world_ok|]. split; [apply ex_world_ok|]. split; [apply ex_groups_ok|]. split; [apply ex_root|]. split; [apply ex_pass_names|].
  split; vm_compute; reflexivity.
Qed.
(* A pass is declared inside the block of its group, itself inside the blocks of the parents of the group; or in the text of its group. *)
Theorem C75_pass_is_in_its_group : forall nm w cf fuel text, compiled_order w -> ids_ok w -> well_declared w ->
  group_names_ok nm (map d_id w) -> pass_names_ok nm (map d_id w) -> (List.length w <= fuel)%nat ->
  displayPasses_to nm fuel cf (compileGraph w) = Some text ->
  forall p around, In p w -> In (nm_pass nm (d_id p), around) (nodes_in [] text) ->
    (cf_split cf = true -> around = [nm_group nm (nm_of nm (d_id p))]) /\
    (cf_split cf = false -> cf_groups cf = true -> around = (group_labels nm (nm_of nm (d_id p)) ++ [EmptyString])%list).
Proof. exact place_ok. Qed.
Print Assumptions C75_pass_is_in_its_group.
Example C75_place_applies : exists text, displayPasses_to ex_names_ok 3 {| cf_groups := true; cf_split := false |} (compileGraph ex_world) = Some text /\
  In ("A/p1", ["A"; "graph"; ""])%string (nodes_in [] text) /\ In ("graph/p3", ["graph"; ""])%string (nodes_in [] text).
Proof. eexists. split; [vm_compute; reflexivity|]. cbn. tauto. Qed.
(* A pass without an edge is not in the drawing: here the second one. *)
Theorem C75_lonely_pass_refuted : exists nm w p text, compiled_order w /\ ids_ok w /\ well_declared w /\ group_names_ok nm (map d_id w) /\ one_root nm (map d_id w) /\ pass_names_ok nm (map d_id w) /\
  In p w /\ displayPasses_to nm (List.length w) {| cf_groups := true; cf_split := false |} (compileGraph w) = Some text /\ declared (nm_pass nm (d_id p)) text = 0%nat.
Proof.
  exists ex_names_ok, ex_world, (pass_of ex_world 2). eexists. split; [apply ex_world_ok|]. split; [apply ex_world_ok|]. split; [apply ex_world_ok|]. split; [apply ex_groups_ok|]. split; [apply ex_root|]. split; [apply ex_pass_names|].
  split; [cbn; tauto|]. split; [vm_compute; reflexivity|vm_compute; reflexivity].
Qed.
Print Assumptions C75_lonely_pass_refuted.
(* A group named as the graph: all its contents are written twice. *)
Theorem C75_same_group_name_refuted : exists nm w text, compiled_order w /\ ids_ok w /\ well_declared w /\ one_root nm (map d_id w) /\ pass_names_ok nm (map d_id w) /\
  displayPasses_to nm (List.length w) {| cf_groups := true; cf_split := false |} (compileGraph w) = Some text /\
  drawn_graph nm w (compileGraph w) <> [] /\ arrows text = (drawn_graph nm w (compileGraph w) ++ drawn_graph nm w (compileGraph w))%list.
Proof.
  exists (ex_names (fun _ => [2; 1]) "graph"), ex_world. eexists. split; [apply ex_world_ok|]. split; [apply ex_world_ok|]. split; [apply ex_world_ok|].
  split; [exists 1; intros p _; exists [2]; reflexivity|]. split; [exact ex_pass_names|]. split; [vm_compute; reflexivity|]. split; [vm_compute; discriminate|vm_compute; reflexivity].
Qed.
Print Assumptions C75_same_group_name_refuted.
(* The name of a pass in the drawing is the name of its group and its own: two passes in two groups of the same name are the same node. *)
Theorem C75_same_pass_name_refuted : exists nm w text p q, compiled_order w /\ ids_ok w /\ well_declared w /\ one_root nm (map d_id w) /\ In p w /\ In q w /\ d_id p <> d_id q /\
  nm_of nm (d_id p) <> nm_of nm (d_id q) /\ displayPasses_to nm (List.length w) {| cf_groups := true; cf_split := false |} (compileGraph w) = Some text /\
  In (d_id q) (getNext (compileGraph w) (Some (d_id p))) /\ forall a b x, In (a, b, x) (arrows text) -> a = nm_pass nm (d_id p) \/ b = nm_pass nm (d_id p).
Proof.
  pose (nm := {| nm_pass := fun _ => "A/draw"%string; nm_group := fun g => match g with [_] => "graph"%string | [_; _] => "B"%string | _ => "A"%string end;
                 nm_attach := fun _ => "a"%string; nm_view := fun _ => "v"%string; nm_buffer := fun _ => "b"%string; nm_of := fun p => [4; p; 1] |}).
  exists nm, ex_world. eexists. exists (pass_of ex_world 1), (pass_of ex_world 3). split; [apply ex_world_ok|]. split; [apply ex_world_ok|]. split; [apply ex_world_ok|].
  split; [exists 1; intros p _; exists [4; p]; reflexivity|]. split; [cbn; tauto|]. split; [cbn; tauto|]. split; [discriminate|]. split; [discriminate|]. split; [vm_compute; reflexivity|].
  split; [vm_compute; tauto|]. intros a b x. vm_compute. intros [H|[H|[]]]; injection H as <- <- <-; auto.
Qed.
Print Assumptions C75_same_pass_name_refuted.

(** C76: the drawing of the transitions shows each of them once: proved for the text of the outermost group. *)
Theorem C76_every_transition_is_shown_partial : forall nm ps cf t, (forall x, In x (as_views t) -> pass_in ps (t_out x) /\ pass_in ps (t_in x)) ->
  (forall x, In x (as_buffers t) -> pass_in ps (t_out x) /\ pass_in ps (t_in x)) -> group_names_ok nm ps -> cf_split cf = false ->
  let text := dget EmptyString (displayTransitions nm cf t) in one_digraph text /\ Permutation (arrows text) (shown_all nm t).
Proof. exact transitions_text. Qed.
Print Assumptions C76_every_transition_is_shown_partial.
(* In particular for the transitions of a graph. *)
Theorem C76_graph_transitions_partial : forall nm w cf, compiled_order w -> ids_ok w -> well_declared w -> group_names_ok nm (map d_id w) -> cf_split cf = false ->
  let text := dget EmptyString (displayTransitions nm cf (graph_transitions w)) in one_digraph text /\ Permutation (arrows text) (shown_all nm (graph_transitions w)).
Proof.
  intros nm w cf Ho Hi Hd Hn Sp. apply (transitions_text nm (map d_id w)); try assumption.
  - intros x Hx. cbn [graph_transitions as_views] in Hx. destruct (sokv w Ho Hi Hd) as (A & _). rewrite Forall_forall in A. destruct (A x Hx) as [_ K].
    assert (In1 : forall a, din view_traits w d_images a \/ dout view_traits w d_images a \/ at_pass a = None -> pass_in (map d_id w) a).
    { intros a [(p & Hp & Ha & _)|[(p & Hp & Ha & _)|H]] q Hq; [| |congruence]; rewrite (proj1 (proj1 (Hd p Hp) a Ha)) in Hq; injection Hq as <-; apply in_map, Hp. }
    split; apply In1; tauto.
  - intros x Hx. cbn [graph_transitions as_buffers] in Hx. destruct (sokb w Ho Hi Hd) as (A & _). rewrite Forall_forall in A. destruct (A x Hx) as [_ K].
    assert (In1 : forall a, din buffer_traits w d_buffers a \/ dout buffer_traits w d_buffers a \/ at_pass a = None -> pass_in (map d_id w) a).
    { intros a [(p & Hp & Ha & _)|[(p & Hp & Ha & _)|H]] q Hq; [| |congruence]; rewrite (proj1 (proj2 (Hd p Hp) a Ha)) in Hq; injection Hq as <-; apply in_map, Hp. }
    split; apply In1; tauto.
Qed.
Print Assumptions C76_graph_transitions_partial.
Example C76_applies : displayTransitions ex_names_ok {| cf_groups := true; cf_split := false |} (graph_transitions ex_world) =
  [("", [LDigraph ""; LCluster [1] "graph"; LCluster [2; 1] "A"; LNode "A/p2"; LNode "A/p1"; LClose; LNode "graph/p3"; LNode "a1\ntransition to\na3";
         LEdge "A/p1" "a1\ntransition to\na3" "v1"; LEdge "a1\ntransition to\na3" "graph/p3" "v1"; LClose; LNode "ExternalSource"; LNode "a2\ntransition to\n";
         LEdge "A/p2" "a2\ntransition to\n" "v2"; LEdge "a2\ntransition to\n" "ExternalDestination" "v2"; LClose]);
   ("A", [LCluster [2; 1] "A"; LNode "A/p2"; LNode "A/p1"; LClose]);
   ("graph", [LCluster [1] "graph"; LCluster [2; 1] "A"; LNode "A/p2"; LNode "A/p1"; LClose; LNode "graph/p3"; LNode "a1\ntransition to\na3";
         LEdge "A/p1" "a1\ntransition to\na3" "v1"; LEdge "a1\ntransition to\na3" "graph/p3" "v1"; LClose])]%string.
Proof. vm_compute. reflexivity. Qed.
(* Written to a stream, the text of each group follows the text that already has it: transitions are shown again. *)
Theorem C76_stream_refuted : exists nm w, compiled_order w /\ ids_ok w /\ well_declared w /\ group_names_ok nm (map d_id w) /\ one_root nm (map d_id w) /\ pass_names_ok nm (map d_id w) /\
  let text := displayTransitions_to nm {| cf_groups := true; cf_split := false |} (graph_transitions w) in
  exists again, again <> [] /\ incl again (shown_all nm (graph_transitions w)) /\ Permutation (arrows text) (shown_all nm (graph_transitions w) ++ again).
Proof.
  exists ex_names_ok, ex_world. split; [apply ex_world_ok|]. split; [apply ex_world_ok|]. split; [apply ex_world_ok|]. split; [apply ex_groups_ok|]. split; [apply ex_root|]. split; [apply ex_pass_names|].
  exists [("A/p1", "a1\ntransition to\na3", "v1"); ("a1\ntransition to\na3", "graph/p3", "v1")]%string. split; [discriminate|]. split.
  - intros x [<-|[<-|[]]]; vm_compute; tauto.
  - match goal with |- Permutation ?a ?b => let a' := eval vm_compute in a in let b' := eval vm_compute in b in change (Permutation a' b') end.
    match goal with |- Permutation [?a; ?b; ?c; ?d; ?e; ?f] ?r => change (Permutation ([a; b] ++ [c; d] ++ [e; f]) r) end.
    first [reflexivity|rewrite (Permutation_app_comm _ ([_; _] ++ _)), <- app_assoc; reflexivity|rewrite app_assoc, (Permutation_app_comm [_; _] [_; _]); reflexivity].
Qed.
Print Assumptions C76_stream_refuted.
(* With one text per group, a transition from or to the outside of the graph is in none of them. *)
Theorem C76_split_refuted : exists nm w x, compiled_order w /\ ids_ok w /\ well_declared w /\ group_names_ok nm (map d_id w) /\ one_root nm (map d_id w) /\ pass_names_ok nm (map d_id w) /\
  In x (shown_all nm (graph_transitions w)) /\ forall name text, In (name, text) (displayTransitions nm {| cf_groups := true; cf_split := true |} (graph_transitions w)) -> ~ In x (arrows text).
Proof.
  exists ex_names_ok, ex_world, ("A/p2", "a2\ntransition to\n", "v2")%string. split; [apply ex_world_ok|]. split; [apply ex_world_ok|]. split; [apply ex_world_ok|]. split; [apply ex_groups_ok|]. split; [apply ex_root|]. split; [apply ex_pass_names|].
  split; [vm_compute; tauto|]. intros name text. vm_compute. intros [H|[H|[]]]; injection H as <- <-; cbn; intuition discriminate.
Qed.
Print Assumptions C76_split_refuted.

(** C77: the transitions of the edges of the graph given by a runnable graph can be asked to the node they lead to. *)
Theorem C77_pass_edges_partial : forall w addr local, compiled_order w -> ids_ok w -> well_declared w -> (forall i j, addr i = addr j -> i = j) -> (forall i, addr i <> local) ->
  forall a b, In b (getNext (compileGraph w) (Some a)) ->
  exists x, inputAttaches_at addr local (compileGraph w) b (addr a) = Some x /\ (as_views x <> [] \/ as_buffers x <> []) /\
    (forall t, In t (as_views x) -> carries_view w a b t) /\ (forall t, In t (as_buffers x) -> carries_buffer w a b t).
Proof.
  intros w addr local Ho Hi Hd Inj Loc a b H. destruct (edges_sound w Ho Hi Hd a b H) as (_ & x & E & Hx). exists x. split; [|exact Hx].
  rewrite <- E. unfold inputAttaches_at, getInputAttaches. erewrite filter_ext; [reflexivity|]. intros [n [p t]]. cbn [fst snd]. f_equal. destruct p as [i|]; cbn [node_address node_eqb opt_eqb].
  - destruct (N.eqb_spec i a) as [->|Hne]; [apply N.eqb_refl|]. apply N.eqb_neq. intro K. apply Hne, Inj, K.
  - apply N.eqb_neq. intro K. exact (Loc a (eq_sym K)).
Qed.
Print Assumptions C77_pass_edges_partial.
(* For every graph, none of the edges of the root can be: the root node was moved, the keys have its former address. *)
Theorem C77_root_refuted :
  (forall w addr local root, (forall i, addr i <> root) -> local <> root -> forall n, In n (getNext (compileGraph w) None) -> inputAttaches_at addr local (compileGraph w) n root = None) /\
  (exists w, compiled_order w /\ ids_ok w /\ well_declared w /\ getNext (compileGraph w) None <> []).
Proof.
  split.
  - intros w addr local root Ha Hl n _. unfold inputAttaches_at. destruct (filter _ (gr_inputs (compileGraph w))) as [|[m [p x]] l] eqn:E; [reflexivity|]. exfalso.
    assert (K : In (m, (p, x)) (filter (fun e => andb (N.eqb (fst e) n) (N.eqb (node_address addr local (fst (snd e))) root)) (gr_inputs (compileGraph w)))) by (rewrite E; left; reflexivity).
    apply filter_In in K. destruct K as [_ K]. cbn [fst snd] in K. apply Bool.andb_true_iff in K. destruct K as [_ K]. apply N.eqb_eq in K. destruct p as [i|]; [exact (Ha i K)|exact (Hl K)].
  - exists ex_world. split; [apply ex_world_ok|]. split; [apply ex_world_ok|]. split; [apply ex_world_ok|]. vm_compute. discriminate.
Qed.
Print Assumptions C77_root_refuted.
Example C77_applies : inputAttaches_at (fun i => 100 + i) 7 (compileGraph ex_world) 3 101 = getInputAttaches (compileGraph ex_world) 3 (Some 1) /\
  inputAttaches_at (fun i => 100 + i) 7 (compileGraph ex_world) 1 8 = None /\ getNext (compileGraph ex_world) None = [1; 2].
Proof. vm_compute. repeat split; reflexivity. Qed.
