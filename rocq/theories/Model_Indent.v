(* Model of the characters of the exported drawings: the streams with an indentation, and the text of each line.
   Sources: source/RenderGraph/DotExport.cpp:25-246, 318-400, 456-538, 798-855.
   Simplifications: one stream is its text, its indentation and whether the next character starts a line; the failures of the stream
   underneath and the table that deletes the buffers are not represented.  The shape, the identifier and the colour of the nodes and of the
   arrows are given, one for each line of Model_Dot. *)
From Verif Require Export Model_Dot.
From Coq Require Import ZArith Ascii DecimalString.
Local Open Scope N_scope.

Definition newline : ascii := "010"%char.
Definition eol : string := String newline EmptyString.
Definition quote : string := """".
(* std::stringstream with its own buffer, or behind a BasicIndentBuffer (DotExport.cpp:25-95): m_count and m_set *)
Record ostream := { os_text : string; os_indent : option (Z * bool) }.
Definition new_stream : ostream := {| os_text := EmptyString; os_indent := None |}.
(* std::fill_n with blanks *)
Fixpoint blanks (n : nat) : string := match n with O => EmptyString | S n => String " "%char (blanks n) end.
(* DotExport.cpp:65-89: overflow: one character *)
Definition put_char (c : ascii) (s : ostream) : ostream :=
  match os_indent s with
  | None => {| os_text := os_text s ++ String c EmptyString; os_indent := None |}
  | Some (count, start) =>
      let text := if start then (os_text s ++ blanks (Z.to_nat count))%string else os_text s in
      {| os_text := text ++ String c EmptyString; os_indent := Some (count, Ascii.eqb c newline) |}
  end.
Fixpoint put (t : string) (s : ostream) : ostream := match t with EmptyString => s | String c t => put t (put_char c s) end.
(* DotExport.cpp:49-53, 231-246: operator<< of Indent, which puts the buffer at its first use *)
Definition indent (i : Z) (s : ostream) : ostream :=
  let '(count, start) := match os_indent s with Some x => x | None => (0%Z, true) end in
  {| os_text := os_text s; os_indent := Some (Z.max 0 (count + i), start) |}.

(* What the nodes and the arrows look like: withIds and withColours, and withColours for the groups. *)
Record looks := { lk_shape : line -> string; lk_id : line -> option string; lk_colour : line -> option string; lk_groups : bool }.
(* DotExport.cpp:420-425: getLevel *)
Fixpoint getLevel (g : gpath) : nat := match g with [] => 0 | _ :: p => match p with [] => getLevel p | _ => S (getLevel p) end end.
(* DotExport.cpp:343-353: colours *)
Definition colours : list string := ["#FFFFFF"; "#EEEEEE"; "#DDDDDD"; "#CCCCCC"; "#BBBBBB"; "#AAAAAA"; "#999999"; "#888888"]%string.

Section Names.
  Context (nm : names) (lk : looks).
  (* DotExport.cpp:466-475, 501-515, 528-536: the text of one node or of one arrow *)
  Definition line_text (l : line) : string :=
    match l with
    | LNode n => quote ++ n ++ quote ++ " [ shape=" ++ lk_shape lk l ++
        match lk_id lk l with Some i => " id=" ++ quote ++ i ++ quote | None => EmptyString end ++
        match lk_colour lk l with Some c => " style=filled fillcolor=white color=" ++ quote ++ c ++ quote | None => EmptyString end ++ " ];"
    | LEdge a b x => quote ++ a ++ quote ++ " -> " ++ quote ++ b ++ quote ++ " [ label=" ++ quote ++ x ++ quote ++
        match lk_colour lk l with Some c => " color = " ++ quote ++ c ++ quote ++ " fontcolor=" ++ quote ++ c ++ quote | None => EmptyString end ++ " ];"
    | _ => EmptyString
    end%string.
  (* the same lines: a node or an arrow is written between an indentation and its opposite *)
  Definition put_line (s : ostream) (l : line) : ostream := indent (-2) (put (line_text l ++ eol) (indent 2 s)).
  Definition lines_text (l : list line) : string := os_text (fold_left put_line l new_stream).
  (* DotExport.cpp:355-366: the beginning of a group *)
  Definition group_text (g : gpath) : string :=
    ("subgraph cluster_" ++ NilEmpty.string_of_uint (N.to_uint (hd 0 g)) ++ " {" ++ eol ++ "  label=" ++ quote ++ group_name nm g ++ quote ++ ";" ++ eol ++
    (if lk_groups lk then "  style=filled;" ++ eol ++ "  fillcolor=" ++ quote ++ nth (Nat.min (getLevel g) (List.length colours - 1)) colours EmptyString ++ quote ++ ";" ++ eol ++
                          "  color=black;" ++ eol
     else EmptyString))%string.

  (* DisplayResult, with the characters *)
  Definition texts := list (string * ostream).
  Definition thas (k : string) (m : texts) : bool := existsb (fun e => String.eqb (fst e) k) m.
  Fixpoint tnew (k : string) (x : ostream) (m : texts) : texts :=
    match m with
    | [] => [(k, x)]
    | (k', x') :: r => match String.compare k k' with Gt => (k', x') :: tnew k x r | _ => (k, x) :: m end
    end.
  (* try_emplace, then some writing *)
  Definition tput (k : string) (f : ostream -> ostream) (m : texts) : texts :=
    if thas k m then map (fun e => if String.eqb (fst e) k then (fst e, f (snd e)) else e) m else tnew k (f new_stream) m.
  Definition tget (k : string) (m : texts) : ostream := match find (fun e => String.eqb (fst e) k) m with Some e => snd e | None => new_stream end.
  (* DotExport.cpp:318-400: write; the recursion is on the depth of the groups *)
  Fixpoint wr_text (depth : nat) (cf : config) (s : streams) (g : gpath) (global : string) (m : texts) : texts :=
    match depth with
    | O => m
    | S depth =>
        if cf_split cf then
          let m := match g with
                   | [] => m
                   | _ => tput (group_name nm g) (fun o => put ("}" ++ eol) (put (lines_text (st_lines s g)) (put ("digraph " ++ quote ++ group_name nm g ++ quote ++ " {" ++ eol) o))) m
                   end%string in
          fold_left (fun m c => wr_text depth cf s c EmptyString m) (st_children s g) m
        else
          let m := tput (group_name nm g) (fun o =>
                     let o := put (match g with [] => ("digraph {" ++ eol)%string | _ => if cf_groups cf then group_text g else EmptyString end) o in
                     if cf_groups cf then indent 2 o else o) m in
          let m := fold_left (fun m c => let m := wr_text depth cf s c EmptyString m in
                                         tput (group_name nm g) (put (os_text (tget (group_name nm c) m))) m) (st_children s g) m in
          tput (group_name nm g) (fun o =>
            let o := if cf_groups cf then indent (-2) o else o in
            let o := put (lines_text (st_lines s g)) o in
            match g with
            | [] => put ("}" ++ eol) (put global o)
            | _ => if cf_groups cf then put ("}" ++ eol) o else o
            end)%string m
    end.
  (* DotExport.cpp:798-805, 815-836: displayPasses to a stream *)
  Definition passes_text (fuel : nat) (cf : config) (g : graph) : option string :=
    match visitRoot nm fuel g with
    | Some s =>
        let m := wr_text (S (max_depth s)) cf s [] EmptyString [] in
        Some (if cf_split cf then fold_right append EmptyString (map (fun e => os_text (snd e)) (filter (fun e => negb (String.eqb (fst e) EmptyString)) m))
              else os_text (tget EmptyString m))
    | None => None
    end.
  (* DotExport.cpp:807-813: displayTransitions: the text of the outermost object *)
  Definition transitions_text_of (cf : config) (t : attaches) : string :=
    let '(s, global) := transition_streams nm t in os_text (tget EmptyString (wr_text (S (max_depth s)) cf s [] (lines_text global) [])).
End Names.
