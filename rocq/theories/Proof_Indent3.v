(* The characters of the drawings, end (C114): reading them back, the drawings of a graph, and any use of a stream. *)
From Verif Require Import Spec_Indent Proof_Deps Proof_Graph Proof_Graph2 Proof_Dot Proof_Dot2 Proof_Dot3 Proof_Dot4 Proof_Dot5 Proof_Dot6 Proof_Dot7 Proof_Dot8 Proof_Indent Proof_Indent2.
From Coq Require Import ZArith Ascii DecimalString Lia.
Local Open Scope N_scope.

(* Between quotes. *)
Notation qt := """"%char.
Lemma quoted_out a : without qt a -> forall r, quoted None (a ++ r) = quoted None r.
Proof. induction a as [|c a IH]; intros W r; [reflexivity|]. destruct W as [W1 W2]. cbn [append quoted]. destruct (Ascii.eqb_spec c qt) as [E|E]; [congruence|]. apply IH, W2. Qed.
Lemma quoted_in a : without qt a -> forall x r, quoted (Some x) (a ++ r) = quoted (Some (x ++ a)%string) r.
Proof.
  induction a as [|c a IH]; intros W x r; [rewrite str_nil; reflexivity|]. destruct W as [W1 W2]. cbn [append quoted]. destruct (Ascii.eqb_spec c qt) as [E|E]; [congruence|].
  cbn [option_map]. rewrite IH by exact W2. rewrite str_assoc. reflexivity.
Qed.
Lemma quoted_one a r : without qt a -> quoted None (String qt (a ++ String qt r)) = a :: quoted None r.
Proof. intro W. cbn [quoted]. rewrite Ascii.eqb_refl, quoted_in by exact W. cbn [quoted]. rewrite Ascii.eqb_refl. reflexivity. Qed.
Lemma blanks_quotes n : without qt (blanks n).
Proof. induction n as [|n IH]; cbn; [exact I|split; [discriminate|exact IH]]. Qed.
Lemma quoted_lines l : forall r, (forall s, In s l -> forall r, quoted None (s ++ r) = (quoted None s ++ quoted None r)%list) ->
  quoted None (as_lines l ++ r) = (flat_map (quoted None) l ++ quoted None r)%list.
Proof.
  induction l as [|s l IH]; intros r H; [reflexivity|]. cbn [as_lines fold_right flat_map]. unfold as_line at 1. fold (as_lines l). rewrite !str_assoc, (H s (or_introl eq_refl)).
  cbn [append]. rewrite <- app_assoc. f_equal. cbn [quoted]. cbn. apply IH. intros t Ht. apply H. right. exact Ht.
Qed.
Definition closed_line (s : string) (q : list string) : Prop := forall r, quoted None (s ++ r) = (q ++ quoted None r)%list.
Lemma closed_out a : without qt a -> closed_line a [].
Proof. intros W r. apply quoted_out, W. Qed.
Lemma closed_app a b p q : closed_line a p -> closed_line b q -> closed_line (a ++ b) (p ++ q).
Proof. intros A B r. rewrite str_assoc, A, B, app_assoc. reflexivity. Qed.
Lemma closed_one a : without qt a -> closed_line (quote ++ a ++ quote) [a].
Proof. intros W r. unfold quote. cbn [append]. rewrite str_assoc. cbn [append]. apply quoted_one, W. Qed.
Lemma closed_eq a q : closed_line a q -> quoted None a = q.
Proof. intro H. specialize (H EmptyString). rewrite str_nil in H. cbn [quoted] in H. rewrite app_nil_r in H. exact H. Qed.
Lemma closed_cons a b c q : without qt a -> without qt b -> closed_line c q -> closed_line (a ++ quote ++ b ++ quote ++ c) (b :: q).
Proof.
  intros A B C r. rewrite !str_assoc, quoted_out by exact A. unfold quote. cbn [append]. rewrite quoted_one by exact B. rewrite C. reflexivity.
Qed.
Ltac qlit := cbn; repeat split; discriminate.
Definition some_list {A} (o : option A) : list A := match o with Some x => [x] | None => [] end.

Lemma line_closed lk l : (match l with LNode _ | LEdge _ _ _ => True | _ => False end) -> text_without qt lk [l] -> closed_line (line_text lk l) (strings_of lk l).
Proof.
  intros P [W1 W2]. specialize (W1 l (or_introl eq_refl)). unfold all_without in W1. destruct l as [| | |n|a b x]; try destruct P; cbn [line_text strings_of] in *.
  - apply (closed_cons EmptyString n); [exact I|apply W1; left; reflexivity|].
    change (some_list (lk_id lk (LNode n)) ++ some_list (lk_colour lk (LNode n)))%list with ([] ++ [] ++ (some_list (lk_id lk (LNode n)) ++ some_list (lk_colour lk (LNode n))))%list.
    apply (closed_app " [ shape=" _ [] _); [apply closed_out; qlit|]. apply (closed_app _ _ [] _); [apply closed_out, W2|]. apply closed_app.
    + destruct (lk_id lk (LNode n)) as [i|]; [|apply closed_out; exact I]. apply (closed_app " id=" (quote ++ i ++ quote) [] [i]); [apply closed_out; qlit|]. apply closed_one, W1. cbn. tauto.
    + match goal with |- closed_line _ ?q => rewrite <- (app_nil_r q) end. apply closed_app; [|apply closed_out; qlit]. destruct (lk_colour lk (LNode n)) as [i|]; [|apply closed_out; exact I].
      apply (closed_app " style=filled fillcolor=white color=" (quote ++ i ++ quote) [] [i]); [apply closed_out; qlit|]. apply closed_one, W1. right. apply in_or_app. right. left. reflexivity.
  - apply (closed_cons EmptyString a); [exact I|apply W1; cbn; tauto|]. apply (closed_cons " -> " b); [qlit|apply W1; cbn; tauto|]. apply (closed_cons " [ label=" x); [qlit|apply W1; cbn; tauto|].
    match goal with |- closed_line _ ?q => rewrite <- (app_nil_r q) end. apply closed_app; [|apply closed_out; qlit]. destruct (lk_colour lk (LEdge a b x)) as [c|]; [|apply closed_out; exact I].
    assert (Wc : without qt c) by (apply W1; cbn; tauto). apply (closed_cons " color = " c); [qlit|exact Wc|]. apply (closed_app " fontcolor=" (quote ++ c ++ quote) [] [c]); [apply closed_out; qlit|apply closed_one, Wc].
Qed.
Lemma closed_shifted d s q : closed_line s q -> forall r, quoted None (as_lines (shifted d [s]) ++ r) = (q ++ quoted None r)%list.
Proof.
  intros C r. unfold shifted, as_lines, as_line. cbn [map fold_right]. rewrite !str_assoc. rewrite (quoted_out (blanks _)) by apply blanks_quotes. rewrite C. reflexivity.
Qed.
Lemma opening_closed lk l : (match l with LDigraph _ | LCluster _ _ => True | _ => False end) -> text_without qt lk [l] ->
  forall d r, quoted None (as_lines (shifted d (opening lk l)) ++ r) = (quotes_of lk l ++ quoted None r)%list.
Proof.
  intros P [W1 _] d r. specialize (W1 l (or_introl eq_refl)). unfold all_without in W1. destruct l as [n|g n| | |]; try destruct P; cbn [strings_of opening quotes_of] in *.
  - pose proof (W1 n (or_introl eq_refl)) as Wn. destruct n as [|c n].
    + apply (closed_shifted d "digraph {" []). apply closed_out. qlit.
    + apply (closed_shifted d ("digraph """ ++ String c n ++ """ {") [String c n]).
      exact (closed_cons "digraph " (String c n) " {" [] ltac:(qlit) Wn (closed_out " {" ltac:(qlit))).
  - pose proof (W1 n (or_introl eq_refl)) as Wn. rewrite quoted_lines.
    + f_equal. unfold shifted. rewrite map_app, flat_map_app. cbn [map flat_map]. rewrite ?(quoted_out (blanks _) (blanks_quotes _)). rewrite app_nil_r.
      assert (E1 : quoted None ("subgraph cluster_" ++ NilEmpty.string_of_uint (N.to_uint (hd 0 g)) ++ " {") = []).
      { apply closed_eq, closed_out. rewrite !without_app. repeat split; try qlit. apply without_uint. cbn. intuition discriminate. }
      assert (E2 : quoted None ("  label=""" ++ n ++ """;") = [n]).
      { apply closed_eq. exact (closed_cons "  label=" n ";" [] ltac:(qlit) Wn (closed_out ";" ltac:(qlit))). }
      rewrite E1, E2. cbn [app]. f_equal. destruct (lk_groups lk); [|reflexivity]. cbn [map flat_map]. rewrite ?(quoted_out (blanks _) (blanks_quotes _)).
      assert (E3 : quoted None ("  fillcolor=""" ++ block_colour g ++ """;") = [block_colour g]).
      { apply closed_eq. refine (closed_cons "  fillcolor=" (block_colour g) ";" [] ltac:(qlit) _ (closed_out ";" ltac:(qlit))). apply block_colour_ok. cbn. intuition discriminate. }
      rewrite E3. reflexivity.
    + intros s Hs r0. unfold shifted in Hs. apply in_map_iff in Hs. destruct Hs as (t & <- & Ht).
      assert (C : exists q, closed_line t q).
      { cbn [app] in Ht. destruct Ht as [<-|[<-|Ht]].
        - exists []. apply closed_out. rewrite !without_app. repeat split; try qlit. apply without_uint. cbn. intuition discriminate.
        - exists [n]. exact (closed_cons "  label=" n ";" [] ltac:(qlit) Wn (closed_out ";" ltac:(qlit))).
        - destruct (lk_groups lk); [|destruct Ht]. destruct Ht as [<-|[<-|[<-|[]]]]; [exists []; apply closed_out; qlit| |exists []; apply closed_out; qlit].
          exists [block_colour g]. refine (closed_cons "  fillcolor=" (block_colour g) ";" [] ltac:(qlit) _ (closed_out ";" ltac:(qlit))). apply block_colour_ok. cbn. intuition discriminate. }
      destruct C as [q C]. rewrite str_assoc, ?(quoted_out (blanks _) (blanks_quotes _)). rewrite C, (closed_eq t q C). reflexivity.
Qed.
Theorem read_back lk text : text_without qt lk text -> forall d, quoted None (as_lines (pretty lk d text)) = flat_map (quotes_of lk) text.
Proof.
  intro W. induction text as [|l r IH]; intro d; [reflexivity|]. apply text_cons in W. destruct W as [Wl Wr]. specialize (IH Wr).
  destruct l as [n|g n| |n|a b x]; cbn [pretty flat_map]; rewrite as_lines_app.
  - rewrite opening_closed by (try exact I; exact Wl). rewrite IH. reflexivity.
  - rewrite opening_closed by (try exact I; exact Wl). rewrite IH. reflexivity.
  - cbn [shifted map as_lines fold_right]. unfold as_line. rewrite !str_assoc, quoted_out by apply blanks_quotes. cbn [append]. cbn [quotes_of strings_of app]. cbn [quoted Ascii.eqb Bool.eqb option_map]. apply IH.
  - pose proof (line_closed lk (LNode n) I Wl) as C. cbn [shifted map as_lines fold_right]. unfold as_line. rewrite !str_assoc, quoted_out by apply blanks_quotes. rewrite C. cbn [quotes_of]. f_equal. cbn [append quoted Ascii.eqb Bool.eqb option_map]. apply IH.
  - pose proof (line_closed lk (LEdge a b x) I Wl) as C. cbn [shifted map as_lines fold_right]. unfold as_line. rewrite !str_assoc, quoted_out by apply blanks_quotes. rewrite C. cbn [quotes_of]. f_equal. cbn [append quoted Ascii.eqb Bool.eqb option_map]. apply IH.
Qed.

(* Any use of a stream. *)
Lemma put_indented t : forall x n start, exists b, exists start', put t (mid x n start) = mid (x ++ b) n start' /\
  forall a' b', indented start' a' b' -> indented start (t ++ a') (b ++ b').
Proof.
  induction t as [|c t IH]; intros x n start.
  - exists EmptyString, start. split; [cbn; rewrite str_nil; reflexivity|]. intros a' b' H. exact H.
  - cbn [put]. set (k := if start then Z.to_nat n else O).
    assert (E : put_char c (mid x n start) = mid (x ++ blanks k ++ String c EmptyString) n (Ascii.eqb c newline)).
    { unfold put_char, mid, k. cbn [os_indent os_text]. destruct start; [rewrite str_assoc; reflexivity|reflexivity]. }
    rewrite E. destruct (IH (x ++ blanks k ++ String c EmptyString)%string n (Ascii.eqb c newline)) as (b & st' & P & Q). exists (blanks k ++ String c b)%string, st'. split.
    + rewrite P. f_equal. rewrite !str_assoc. reflexivity.
    + intros a' b' H. cbn [append]. rewrite str_assoc. cbn [append]. constructor; [intros ->; reflexivity|]. apply Q, H.
Qed.
Lemma write_indented l : forall x n start, exists b, os_text (write_all l (mid x n start)) = (x ++ b)%string /\ indented start (plain_text l) b.
Proof.
  induction l as [|[t|i] l IH]; intros x n start.
  - exists EmptyString. split; [cbn; rewrite str_nil; reflexivity|constructor].
  - cbn [write_all fold_left plain_text]. destruct (put_indented t x n start) as (b & st' & P & Q). rewrite P. fold (write_all l (mid (x ++ b) n st')).
    destruct (IH (x ++ b)%string n st') as (b' & A & B). exists (b ++ b')%string. split; [rewrite A, str_assoc; reflexivity|apply Q, B].
  - cbn [write_all fold_left plain_text]. rewrite indent_mid. apply IH.
Qed.

(* The drawings of the passes of a graph. *)
Lemma some_inj {A} (x y : A) : Some x = Some y -> x = y.
Proof. congruence. Qed.
Lemma split_in {A} (f : A -> list line) l h : In h l -> forall x, In x (f h) -> In x (List.concat (map f l)).
Proof. intros H x Hx. apply in_concat. exists (f h). split; [apply in_map, H|exact Hx]. Qed.
Theorem passes_pretty nm lk w cf fuel text : compiled_order w -> ids_ok w -> well_declared w -> group_names_ok nm (map d_id w) -> (List.length w <= fuel)%nat ->
  displayPasses_to nm fuel cf (compileGraph w) = Some text -> text_without newline lk text ->
  passes_text nm lk fuel cf (compileGraph w) = Some (as_lines (pretty lk 0 text)).
Proof.
  intros Ho Hi Hd Hg Hf Ht W. destruct (streams_ok nm w fuel Ho Hi Hd Hf) as (es & st & V & P & D). pose proof (dr_base _ _ _ _ _ D) as B. pose proof (ba_ok _ _ _ _ B) as O. pose proof (base_plain _ _ _ _ B) as Pl.
  pose proof (names_inj nm _ st _ B Hg) as Inj.
  unfold passes_text. unfold displayPasses_to, displayPasses in Ht. rewrite V in Ht |- *. cbn [option_map] in Ht. apply some_inj in Ht. f_equal. destruct (cf_split cf) eqn:Sp.
  - set (m := st_write nm (S (max_depth st)) cf st [] [] []) in *.
    assert (Ne : forall g, In g (keys st) -> g <> [] -> group_name nm g <> EmptyString).
    { intros g Kg Hn. destruct (ba_keys _ _ _ _ B g Kg) as [->|Kh]; [congruence|]. destruct g as [|x g]; [congruence|]. exact (proj1 Hg _ Kh). }
    pose proof (write_split nm cf st O Inj Sp (S (max_depth st)) [] [] [] (so_root st O) (fun _ _ _ H => H)) as Q. rewrite app_nil_r in Q. fold m in Q.
    assert (Fm : filter (fun e => negb (String.eqb (fst e) EmptyString)) m = m).
    { assert (K : forall e, In e m -> fst e <> EmptyString).
      { intros e He. apply (Permutation_in _ Q) in He. unfold split_texts in He. apply in_map_iff in He. destruct He as (k & <- & Hk). apply filter_In in Hk. destruct Hk as [Hk Hk2]. cbn [fst].
        destruct (tree_in st O _ [] k (so_root st O) Hk) as [Kk _]. apply Ne; [exact Kk|]. intros ->. discriminate. }
      clear - K. induction m as [|e m IH]; [reflexivity|]. cbn [filter]. pose proof (K e (or_introl eq_refl)) as Ke. apply String.eqb_neq in Ke. rewrite Ke. cbn [negb]. f_equal. apply IH. intros x Hx. apply K. right. exact Hx. }
    unfold display in *. rewrite Fm in Ht.
    assert (Wt : forall h, In h (tree st (S (max_depth st)) []) -> h <> [] -> text_without newline lk (st_lines st h)).
    { intros h Hh Hn. destruct W as [W1 W2]. split; [|exact W2]. intros l Hl. apply W1. subst text. apply in_concat. exists (split_text nm st h). split.
      - apply in_map_iff. exists (group_name nm h, split_text nm st h). split; [reflexivity|]. apply (Permutation_in _ (Permutation_sym Q)). unfold split_texts. apply in_map_iff. exists h. split; [reflexivity|].
        apply filter_In. split; [exact Hh|]. destruct h; [congruence|reflexivity].
      - unfold split_text. right. apply in_or_app. left. exact Hl. }
    destruct (text_split nm lk cf st Pl Sp Ne (S (max_depth st)) [] [] EmptyString [] (so_root st O) (fun e H => match H with end) Wt) as [T1 T2]. cbn [map] in T1. unfold texts in *. rewrite T1. fold m. fold m in T2.
    assert (Fm' : filter (fun e => negb (String.eqb (fst e) EmptyString)) (map (text_of lk) m) = map (text_of lk) m).
    { clear - Fm. induction m as [|e m IH]; [reflexivity|]. cbn [map filter text_of fst] in *. destruct (negb (String.eqb (fst e) EmptyString)) eqn:Ee.
      - injection Fm as Fm. f_equal. apply IH, Fm.
      - exfalso. assert (H : In e (filter (fun e => negb (String.eqb (fst e) EmptyString)) m)) by (rewrite Fm; left; reflexivity).
        apply filter_In in H. destruct H as [_ H]. congruence. }
    rewrite Fm'. subst text. clear - T2. induction m as [|e m IH]; [reflexivity|]. cbn [map fold_right List.concat text_of snd raw os_text]. rewrite pretty_app by (apply T2; left; reflexivity).
    rewrite as_lines_app. f_equal. apply IH. intros x Hx. apply T2. right. exact Hx.
  - destruct (write_whole nm cf st O Inj Sp (S (max_depth st)) [] [] [] (so_root st O) ltac:(constructor) (fun _ _ _ => eq_refl)) as (_ & T & _). change (group_name nm []) with EmptyString in T. rewrite T in Ht.
    subst text. destruct (text_whole nm lk cf st O Inj Pl Sp (S (max_depth st)) [] [] [] (so_root st O) ltac:(constructor) (fun _ _ _ => eq_refl) (Forall_nil _) W (or_introl eq_refl)) as (_ & T' & _). exact T'.
Qed.
Theorem transitions_pretty nm lk ps cf t : (forall x, In x (as_views t) -> pass_in ps (t_out x) /\ pass_in ps (t_in x)) -> (forall x, In x (as_buffers t) -> pass_in ps (t_out x) /\ pass_in ps (t_in x)) ->
  group_names_ok nm ps -> cf_split cf = false -> let text := dget EmptyString (displayTransitions nm cf t) in text_without newline lk text ->
  transitions_text_of nm lk cf t = as_lines (pretty lk 0 text).
Proof.
  intros Hv Hb Hn Sp. destruct (transitions_ok nm ps t Hv Hb) as [[E [B P]] Pg]. unfold displayTransitions, transitions_text_of. destruct (transition_streams nm t) as [s global]. cbn [fst snd] in *. cbv zeta. intro W.
  pose proof (ba_ok _ _ _ _ B) as O. pose proof (base_plain _ _ _ _ B) as Pl. pose proof (names_inj nm _ s _ B Hn) as Inj.
  destruct (write_whole nm cf s O Inj Sp (S (max_depth s)) [] global [] (so_root s O) ltac:(constructor) (fun _ _ _ => eq_refl)) as (_ & T & _). change (group_name nm []) with EmptyString in T. rewrite T in W |- *.
  destruct (text_whole nm lk cf s O Inj Pl Sp (S (max_depth s)) [] global [] (so_root s O) ltac:(constructor) (fun _ _ _ => eq_refl) Pg W (or_introl eq_refl)) as (_ & T' & _). exact T'.
Qed.
