(* C114: the characters of the drawings. *)
From Verif Require Import Spec_Indent Proof_Dot8 Proof_Indent Proof_Indent2 Proof_Indent3 Props_Deps Props_Dot.
From Coq Require Import ZArith Ascii DecimalString Lia.
Local Open Scope N_scope.

(** C114: each line of the drawing of the passes begins with two blanks for each block around it, and is otherwise the line itself: proved when
    no name has an end of line and the groups have different names. *)
Theorem C114_indentation_follows_blocks_partial : forall nm lk w cf fuel text, compiled_order w -> ids_ok w -> well_declared w ->
  group_names_ok nm (map d_id w) -> (List.length w <= fuel)%nat ->
  displayPasses_to nm fuel cf (compileGraph w) = Some text -> text_without "010"%char lk text ->
  passes_text nm lk fuel cf (compileGraph w) = Some (as_lines (pretty lk 0 text)).
Proof. exact passes_pretty. Qed.
Print Assumptions C114_indentation_follows_blocks_partial.
(* The same for the transitions, in the text of the outermost object. *)
Theorem C114_transitions_are_indented_partial : forall nm lk ps cf t, (forall x, In x (as_views t) -> pass_in ps (t_out x) /\ pass_in ps (t_in x)) ->
  (forall x, In x (as_buffers t) -> pass_in ps (t_out x) /\ pass_in ps (t_in x)) -> group_names_ok nm ps -> cf_split cf = false ->
  let text := dget EmptyString (displayTransitions nm cf t) in text_without "010"%char lk text ->
  transitions_text_of nm lk cf t = as_lines (pretty lk 0 text).
Proof. exact transitions_pretty. Qed.
Print Assumptions C114_transitions_are_indented_partial.
(* What is between quotes in the file is, line after line, the names of the blocks, of the nodes and of the arrows, when no name has a quote. *)
Theorem C114_names_are_read_back_partial : forall nm lk w cf fuel text file, compiled_order w -> ids_ok w -> well_declared w ->
  group_names_ok nm (map d_id w) -> (List.length w <= fuel)%nat ->
  displayPasses_to nm fuel cf (compileGraph w) = Some text -> text_without "010"%char lk text -> text_without """"%char lk text ->
  passes_text nm lk fuel cf (compileGraph w) = Some file -> quoted None file = flat_map (quotes_of lk) text.
Proof.
  intros nm lk w cf fuel text file Ho Hi Hd Hg Hf Ht W Q E. rewrite (passes_pretty nm lk w cf fuel text Ho Hi Hd Hg Hf Ht W) in E. apply some_inj in E. subst file. apply read_back, Q.
Qed.
Print Assumptions C114_names_are_read_back_partial.
(* Whatever is written in a stream that begins with an indentation, of whatever sign, in whatever order: the text is the one written, with
   nothing but blanks added, and only at the beginning of lines. *)
Theorem C114_only_blanks_are_added : forall i l, indented true (plain_text l) (os_text (write_all (WIndent i :: l) new_stream)).
Proof.
  intros i l. destruct (write_indented l EmptyString (Z.max 0 (0 + i)) true) as (b & A & B). cbn [append] in A.
  change (write_all (WIndent i :: l) new_stream) with (write_all l (mid EmptyString (Z.max 0 (0 + i)) true)). rewrite A. exact B.
Qed.
Print Assumptions C114_only_blanks_are_added.

Definition ex_looks : looks := {| lk_shape := fun l => match l with LNode n => if String.eqb n "Transition to\na3" then "box" else "ellipse" | _ => "" end%string;
  lk_id := fun _ => None; lk_colour := fun l => match l with LEdge _ _ _ => Some "#8b008b"%string | _ => None end; lk_groups := true |}.
Definition ex_lines : list line :=
  [LDigraph ""; LCluster [1] "graph"; LCluster [2; 1] "A"; LNode "A/p1"; LClose; LNode "graph/p3"; LNode "Transition to\na3";
   LEdge "A/p1" "Transition to\na3" "v1"; LEdge "Transition to\na3" "graph/p3" "v1"; LClose; LClose]%string.
Example C114_applies :
  displayPasses_to ex_names_ok 3 {| cf_groups := true; cf_split := false |} (compileGraph ex_world) = Some ex_lines /\
  text_without "010"%char ex_looks ex_lines /\ text_without """"%char ex_looks ex_lines /\
  pretty ex_looks 0 ex_lines =
    ["digraph {"; "  subgraph cluster_1 {"; "    label=""graph"";"; "    style=filled;"; "    fillcolor=""#FFFFFF"";"; "    color=black;";
     "    subgraph cluster_2 {"; "      label=""A"";"; "      style=filled;"; "      fillcolor=""#EEEEEE"";"; "      color=black;";
     "      ""A/p1"" [ shape=ellipse ];"; "    }"; "    ""graph/p3"" [ shape=ellipse ];"; "    ""Transition to\na3"" [ shape=box ];";
     "    ""A/p1"" -> ""Transition to\na3"" [ label=""v1"" color = ""#8b008b"" fontcolor=""#8b008b"" ];";
     "    ""Transition to\na3"" -> ""graph/p3"" [ label=""v1"" color = ""#8b008b"" fontcolor=""#8b008b"" ];"; "  }"; "}"]%string /\
  passes_text ex_names_ok ex_looks 3 {| cf_groups := true; cf_split := false |} (compileGraph ex_world) = Some (as_lines (pretty ex_looks 0 ex_lines)).
Proof.
  split; [vm_compute; reflexivity|].
  assert (S : forall c l, ~ In c (list_ascii_of_string (l : string)) -> without c l).
  { intros c l. induction l as [|d l IH]; cbn; [auto|]. intro H. split; [intro E; apply H; left; exact E|apply IH; intro K; apply H; right; exact K]. }
  assert (T : forall c, ~ In c (list_ascii_of_string "elipsboxgraph/p13Transition to\naAv#8b0") -> text_without c ex_looks ex_lines).
  { intros c H. split.
    - intros l Hl s Hs. apply S. intro Hc. apply H. revert c Hc H. cbn in Hl.
      repeat (destruct Hl as [<-|Hl]; [cbn in Hs; repeat (destruct Hs as [<-|Hs]; [intros c Hc _; cbn in Hc |- *; tauto|]); destruct Hs|]). destruct Hl.
    - intros l. apply S. intro Hc. apply H. revert Hc. unfold ex_looks. cbn [lk_shape]. destruct l as [| | |n|]; try (intros []). destruct (String.eqb n "Transition to\na3"); cbn; tauto. }
  split; [apply T; cbn; intuition discriminate|]. split; [apply T; cbn; intuition discriminate|]. split; [vm_compute; reflexivity|vm_compute; reflexivity].
Qed.
Example C114_blanks_apply : os_text (write_all [WIndent 2; WText "a"; WIndent 2; WText (eol ++ "b" ++ eol); WIndent (-7); WText "c"] new_stream) = ("  a" ++ eol ++ "    b" ++ eol ++ "c")%string.
Proof. vm_compute. reflexivity. Qed.
(* A stream that gets its first indentation in the middle of a line: the blanks are in the middle of the line. *)
Theorem C114_first_indentation_refuted : exists l, ~ indented true (plain_text l) (os_text (write_all l new_stream)).
Proof.
  exists [WText "a"; WIndent 2; WText "b"]. change (plain_text _) with "ab"%string.
  assert (E : os_text (write_all [WText "a"; WIndent 2; WText "b"] new_stream) = "a  b"%string) by (vm_compute; reflexivity). rewrite E. clear E. intro H.
  inversion H as [|st c a b n _ H1 E1 E2 E3]; subst. destruct n as [|n]; [|discriminate]. cbn [blanks append] in E3. injection E3 as E3. subst b.
  inversion H1 as [|st c a b n Hn _ E1 E2 E4]; subst. rewrite (Hn eq_refl) in E4. discriminate.
Qed.
Print Assumptions C114_first_indentation_refuted.
(* The name of a pass with an end of line: its node, in the block of its group, and the end of its arrow, outside of it, have different names in the file. *)
Theorem C114_end_of_line_refuted : exists nm lk w cf name file, compiled_order w /\ ids_ok w /\ well_declared w /\ group_names_ok nm (map d_id w) /\ one_root nm (map d_id w) /\
  pass_names_ok nm (map d_id w) /\ (exists p, In p w /\ linked (compileGraph w) (d_id p) /\ nm_pass nm (d_id p) = name) /\
  passes_text nm lk (List.length w) cf (compileGraph w) = Some file /\ ~ In name (quoted None file) /\
  In ("A" ++ String "010"%char "      p")%string (quoted None file) /\ In ("A" ++ String "010"%char "    p")%string (quoted None file) /\ name = ("A" ++ String "010"%char "p")%string.
Proof.
  pose (nm := {| nm_pass := fun p => if N.eqb p 1 then ("A" ++ String "010"%char "p")%string else nm_pass ex_names_ok p; nm_group := nm_group ex_names_ok;
                 nm_attach := nm_attach ex_names_ok; nm_view := nm_view ex_names_ok; nm_buffer := nm_buffer ex_names_ok; nm_of := nm_of ex_names_ok |}).
  exists nm, ex_looks, ex_world, {| cf_groups := true; cf_split := false |}. eexists. eexists. split; [apply ex_world_ok|]. split; [apply ex_world_ok|]. split; [apply ex_world_ok|].
  split; [exact ex_groups_ok|]. split; [exact ex_root|]. split.
  { split.
    - intros p q [<-|[<-|[<-|[]]]] [<-|[<-|[<-|[]]]]; cbn; intro E; try reflexivity; discriminate.
    - intros p a [<-|[<-|[<-|[]]]]; cbn; discriminate. }
  split; [exists (pass_of ex_world 1); split; [cbn; tauto|]; split; [|reflexivity]|].
  { exists 3. left. vm_compute. tauto. }
  split; [vm_compute; reflexivity|]. split; [vm_compute; intuition discriminate|]. split; [vm_compute; tauto|]. split; [vm_compute; tauto|reflexivity].
Qed.
Print Assumptions C114_end_of_line_refuted.
