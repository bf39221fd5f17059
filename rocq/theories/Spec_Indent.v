(* Vocabulary for the characters of the drawings (C114). *)
From Verif Require Export Model_Indent Spec_Dot.
From Coq Require Import ZArith Ascii DecimalString.
Local Open Scope N_scope.

(* No character of [s] is a [c]. *)
Fixpoint without (c : ascii) (s : string) : Prop := match s with EmptyString => True | String d r => d <> c /\ without c r end.
Definition all_without (c : ascii) (l : list string) : Prop := forall s, In s l -> without c s.
(* A line and its end. *)
Definition as_line (s : string) : string := (s ++ String "010"%char EmptyString)%string.
Definition as_lines (l : list string) : string := fold_right (fun s r => (as_line s ++ r)%string) EmptyString l.
(* The colour of the block of a group: darker with the number of its parents. *)
Definition block_colour (g : gpath) : string :=
  nth (List.length g - 1) ["#FFFFFF"; "#EEEEEE"; "#DDDDDD"; "#CCCCCC"; "#BBBBBB"; "#AAAAAA"; "#999999"]%string "#888888"%string.
(* The beginning of a block. *)
Definition opening (lk : looks) (l : line) : list string :=
  match l with
  | LDigraph EmptyString => ["digraph {"%string]
  | LDigraph n => [("digraph """ ++ n ++ """ {")%string]
  | LCluster g n => [("subgraph cluster_" ++ NilEmpty.string_of_uint (N.to_uint (hd 0 g)) ++ " {")%string; ("  label=""" ++ n ++ """;")%string] ++
      (if lk_groups lk then ["  style=filled;"%string; ("  fillcolor=""" ++ block_colour g ++ """;")%string; "  color=black;"%string] else [])
  | _ => []
  end%list.
(* The lines of a text, each with two blanks for each block around it. *)
Definition shifted (depth : nat) (l : list string) : list string := map (fun s => (blanks (2 * depth) ++ s)%string) l.
Fixpoint pretty (lk : looks) (depth : nat) (text : list line) : list string :=
  match text with
  | [] => []
  | LClose :: r => shifted (depth - 1) ["}"%string] ++ pretty lk (depth - 1) r
  | (LNode _ | LEdge _ _ _) as l :: r => shifted depth [line_text lk l] ++ pretty lk depth r
  | l :: r => shifted depth (opening lk l) ++ pretty lk (S depth) r
  end%list.
(* The strings of a line: the names, and what it looks like. *)
Definition strings_of (lk : looks) (l : line) : list string :=
  let some o := match o with Some x => [x] | None => [] end in
  match l with
  | LDigraph n | LCluster _ n => [n]
  | LClose => []
  | LNode n => n :: some (lk_id lk l) ++ some (lk_colour lk l)
  | LEdge a b x => a :: b :: x :: some (lk_colour lk l) ++ some (lk_colour lk l)
  end%list.
(* No string of the text has the character [c]; nor have the shapes. *)
Definition text_without (c : ascii) (lk : looks) (text : list line) : Prop :=
  (forall l, In l text -> all_without c (strings_of lk l)) /\ (forall l, without c (lk_shape lk l)).
(* What is between quotes in a text: the reader is outside of the quotes, or has read [cur]. *)
Fixpoint quoted (cur : option string) (s : string) : list string :=
  match s with
  | EmptyString => []
  | String c r =>
      if Ascii.eqb c """"%char then match cur with None => quoted (Some EmptyString) r | Some x => x :: quoted None r end
      else quoted (option_map (fun x => (x ++ String c EmptyString)%string) cur) r
  end.
(* What the lines of a text have between quotes: the strings of each line, in order; and the colours of the groups. *)
Definition quotes_of (lk : looks) (l : line) : list string :=
  match l with
  | LDigraph EmptyString => []
  | LCluster g n => n :: (if lk_groups lk then [block_colour g] else [])
  | _ => strings_of lk l
  end.

(* What is done with a stream, whatever it is: characters, or a change of the indentation. *)
Inductive writing := WText (s : string) | WIndent (i : Z).
Definition write_all (l : list writing) (s : ostream) : ostream := fold_left (fun s w => match w with WText t => put t s | WIndent i => indent i s end) l s.
Fixpoint plain_text (l : list writing) : string := match l with [] => EmptyString | WText t :: r => (t ++ plain_text r)%string | WIndent _ :: r => plain_text r end.
(* The text [b] is the text [a] with some blanks before some of its lines; [start]: the text begins at the beginning of a line. *)
Inductive indented : bool -> string -> string -> Prop :=
| ind_end start : indented start EmptyString EmptyString
| ind_char start c a b n : (start = false -> n = O) -> indented (Ascii.eqb c "010"%char) a b -> indented start (String c a) (blanks n ++ String c b).
