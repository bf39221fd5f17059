(* The characters of the drawings (C114). *)
From Verif Require Import Spec_Indent Proof_Dot Proof_Dot2 Proof_Dot3 Proof_Dot4 Proof_Dot5.
From Coq Require Import ZArith Ascii DecimalString Lia.
Local Open Scope N_scope.

Lemma str_assoc (a b c : string) : ((a ++ b) ++ c = a ++ (b ++ c))%string.
Proof. induction a as [|x a IH]; cbn; [reflexivity|f_equal; exact IH]. Qed.
Lemma str_nil (a : string) : (a ++ EmptyString = a)%string.
Proof. induction a as [|x a IH]; cbn; [reflexivity|f_equal; exact IH]. Qed.
Lemma put_app a : forall b s, put (a ++ b) s = put b (put a s).
Proof. induction a as [|c a IH]; intros b s; cbn; [reflexivity|apply IH]. Qed.
(* Without an indentation the text is written as it is. *)
Lemma put_raw t : forall x, put t {| os_text := x; os_indent := None |} = {| os_text := x ++ t; os_indent := None |}.
Proof.
  induction t as [|c t IH]; intro x; cbn [put]; [rewrite str_nil; reflexivity|]. unfold put_char. cbn [os_indent os_text]. rewrite IH, str_assoc. reflexivity.
Qed.
(* In the middle of a line. *)
Definition mid (x : string) (n : Z) (start : bool) : ostream := {| os_text := x; os_indent := Some (n, start) |}.
Lemma put_inside t : without newline t -> forall x n, put t (mid x n false) = mid (x ++ t) n false.
Proof.
  induction t as [|c t IH]; intros W x n; cbn [put]; [rewrite str_nil; reflexivity|]. destruct W as [W1 W2]. unfold put_char, mid. cbn [os_indent os_text].
  destruct (Ascii.eqb_spec c newline) as [E|E]; [congruence|]. fold (mid (x ++ String c EmptyString) n false). rewrite IH by exact W2. rewrite str_assoc. reflexivity.
Qed.
Lemma put_line_start t : without newline t -> forall x n, put (t ++ eol) (mid x n true) = mid (x ++ blanks (Z.to_nat n) ++ t ++ eol) n true.
Proof.
  intros W x n. destruct t as [|c t].
  - cbn. unfold put_char, mid. cbn [os_indent os_text]. rewrite str_assoc. reflexivity.
  - destruct W as [W1 W2]. rewrite put_app. cbn [put].
    assert (E : put_char c (mid x n true) = mid ((x ++ blanks (Z.to_nat n)) ++ String c EmptyString) n false).
    { unfold put_char, mid. cbn [os_indent os_text]. destruct (Ascii.eqb_spec c newline) as [E|E]; [congruence|reflexivity]. }
    rewrite E.
    rewrite put_inside by exact W2. cbn [put eol]. unfold put_char, mid. cbn [os_indent os_text]. rewrite !str_assoc. reflexivity.
Qed.
Lemma as_lines_app a b : as_lines (a ++ b) = (as_lines a ++ as_lines b)%string.
Proof. induction a as [|x a IH]; cbn; [reflexivity|]. fold (as_lines a) (as_lines (a ++ b)). rewrite IH, str_assoc. reflexivity. Qed.
Lemma put_lines l : all_without newline l -> forall x n, put (as_lines l) (mid x (Z.of_nat n) true) = mid (x ++ as_lines (map (fun s => blanks n ++ s)%string l)) (Z.of_nat n) true.
Proof.
  induction l as [|t l IH]; intros W x n.
  - cbn. rewrite str_nil. reflexivity.
  - change (as_lines (t :: l)) with ((t ++ eol) ++ as_lines l)%string. rewrite put_app, put_line_start by (apply W; left; reflexivity).
    rewrite IH by (intros y Hy; apply W; right; exact Hy). rewrite Nat2Z.id. cbn [map as_lines fold_right]. fold (as_lines (map (fun s => (blanks n ++ s)%string) l)). unfold as_line. fold eol. rewrite !str_assoc. reflexivity.
Qed.
Lemma indent_mid i x n b : indent i (mid x n b) = mid x (Z.max 0 (n + i)) b.
Proof. reflexivity. Qed.

(* The texts. *)
Lemma pretty_app lk a : well_formed a -> forall d b, pretty lk d (a ++ b) = (pretty lk d a ++ pretty lk d b)%list.
Proof.
  induction 1 as [|l r Hl _ IH|o i r Ho Hi IHi _ IHr]; intros d b; [reflexivity| |].
  - destruct l; try destruct Hl; cbn [app pretty]; rewrite IH, app_assoc; reflexivity.
  - assert (E : forall x, pretty lk d (o :: x) = (shifted d (opening lk o) ++ pretty lk (S d) x)%list) by (intro x; destruct o; try destruct Ho; reflexivity).
    cbn [app]. rewrite !E, <- !app_assoc, !IHi. cbn [app pretty]. rewrite Nat.sub_succ, Nat.sub_0_r, IHr, <- !app_assoc. reflexivity.
Qed.
Lemma blanks_add a : forall b, blanks (a + b) = (blanks a ++ blanks b)%string.
Proof. induction a as [|a IH]; intro b; cbn; [reflexivity|f_equal; apply IH]. Qed.
Lemma shifted_add d e l : shifted (d + e) l = map (fun s => blanks (2 * e) ++ s)%string (shifted d l).
Proof.
  unfold shifted. rewrite map_map. apply map_ext. intro s. rewrite <- str_assoc, <- blanks_add. do 2 f_equal. lia.
Qed.
Lemma pretty_shift lk a : well_formed a -> forall d e, pretty lk (d + e) a = map (fun s => blanks (2 * e) ++ s)%string (pretty lk d a).
Proof.
  induction 1 as [|l r Hl _ IH|o i r Ho Hi IHi _ IHr]; intros d e; [reflexivity| |].
  - destruct l; try destruct Hl; cbn [pretty]; rewrite map_app, IH, shifted_add; reflexivity.
  - assert (E : forall d x, pretty lk d (o :: x) = (shifted d (opening lk o) ++ pretty lk (S d) x)%list) by (intros d0 x; destruct o; try destruct Ho; reflexivity).
    rewrite !E, !pretty_app by exact Hi. cbn [pretty]. rewrite !Nat.sub_succ, !Nat.sub_0_r, !map_app. change (S (d + e)) with (S d + e)%nat. rewrite (IHi (S d) e), IHr, !shifted_add. reflexivity.
Qed.
Lemma pretty_plain lk l : Forall plain l -> forall d, pretty lk d l = shifted d (map (line_text lk) l).
Proof. induction 1 as [|x l H _ IH]; intro d; [reflexivity|]. destruct x; try destruct H; cbn [pretty map shifted]; rewrite IH; reflexivity. Qed.

(* What has no end of line. *)
Lemma without_app c a b : without c (a ++ b) <-> without c a /\ without c b.
Proof. induction a as [|x a IH]; cbn; [tauto|rewrite IH; tauto]. Qed.
Lemma without_blanks n : without newline (blanks n).
Proof. induction n as [|n IH]; cbn; [exact I|split; [discriminate|exact IH]]. Qed.
Lemma without_uint c u : ~ In c ["0"; "1"; "2"; "3"; "4"; "5"; "6"; "7"; "8"; "9"]%char -> without c (NilEmpty.string_of_uint u).
Proof. intro H. induction u; cbn; try exact I; (split; [intro E; apply H; subst c; cbn; tauto|exact IHu]). Qed.
Ltac lit := cbn; repeat split; discriminate.
Lemma line_without lk l (W : text_without newline lk [l]) : without newline (line_text lk l).
Proof.
  destruct W as [W1 W2]. specialize (W1 l (or_introl eq_refl)). unfold all_without in W1.
  destruct l as [n|g n| |n|a b x]; cbn [line_text]; try exact I; cbn [strings_of] in W1; rewrite ?without_app; repeat split; try lit; try apply W2; try (apply W1; cbn; tauto).
  - destruct (lk_id lk (LNode n)) as [i|]; [|exact I]. rewrite ?without_app. repeat split; try lit. apply W1. cbn. tauto.
  - destruct (lk_colour lk (LNode n)) as [i|]; [|exact I]. rewrite ?without_app. repeat split; try lit. apply W1. right. apply in_or_app. right. left. reflexivity.
  - destruct (lk_colour lk (LEdge a b x)) as [i|]; [|exact I]. assert (without newline i) by (apply W1; cbn; tauto). rewrite ?without_app. repeat split; try lit; assumption.
Qed.
Lemma block_colour_ok c g : ~ In c ["#"; "0"; "1"; "2"; "3"; "4"; "5"; "6"; "7"; "8"; "9"; "A"; "B"; "C"; "D"; "E"; "F"]%char -> without c (block_colour g).
Proof.
  intro H. unfold block_colour. assert (Z : forall l d, all_without c (d :: l) -> forall n, without c (nth n l d)).
  { intros l d Hl n. destruct (nth_in_or_default n l d) as [Hn|Hn]; apply Hl; [right; exact Hn|left; symmetry; exact Hn]. }
  apply Z. intros s Hs. cbn in Hs. repeat (destruct Hs as [<-|Hs]; [cbn; repeat split; intro E; apply H; subst c; cbn; tauto|]). destruct Hs.
Qed.
Lemma opening_without lk l : text_without newline lk [l] -> all_without newline (opening lk l).
Proof.
  intros [W1 _]. specialize (W1 l (or_introl eq_refl)). unfold all_without in W1. intros s Hs. destruct l as [n|g n| |n|a b x]; cbn [opening strings_of] in *; try destruct Hs.
  - destruct n as [|c n]; destruct Hs as [<-|[]]; [lit|]. rewrite ?without_app. repeat split; try lit; apply (W1 (String c n)); left; reflexivity.
  - subst s. rewrite ?without_app. repeat split; try lit. apply without_uint. cbn. intuition discriminate.
  - destruct H as [<-|H]; [rewrite ?without_app; repeat split; try lit; apply W1; left; reflexivity|]. destruct (lk_groups lk); [|destruct H].
    destruct H as [<-|[<-|[<-|[]]]]; try lit. rewrite ?without_app. repeat split; try lit. apply block_colour_ok. cbn. intuition discriminate.
Qed.
Lemma text_cons c lk l r : text_without c lk (l :: r) <-> text_without c lk [l] /\ text_without c lk r.
Proof.
  unfold text_without. split.
  - intros [A B]. split; (split; [|exact B]); [intros x [<-|[]]; apply A; left; reflexivity|intros x Hx; apply A; right; exact Hx].
  - intros [[A B] [A' _]]. split; [|exact B]. intros x [<-|Hx]; [apply A; left; reflexivity|apply A', Hx].
Qed.
Lemma text_app c lk a b : text_without c lk (a ++ b) <-> text_without c lk a /\ text_without c lk b.
Proof.
  unfold text_without. split.
  - intros [A B]. split; (split; [|exact B]); intros x Hx; apply A, in_or_app; tauto.
  - intros [[A B] [A' _]]. split; [|exact B]. intros x Hx. apply in_app_or in Hx. destruct Hx; auto.
Qed.
Lemma shifted_without d l : all_without newline l -> all_without newline (shifted d l).
Proof. intros W s Hs. apply in_map_iff in Hs. destruct Hs as (t & <- & Ht). apply without_app. split; [apply without_blanks|apply W, Ht]. Qed.
Lemma all_app c a b : all_without c (a ++ b) <-> all_without c a /\ all_without c b.
Proof. unfold all_without. setoid_rewrite in_app_iff. firstorder. Qed.
Lemma pretty_without lk text : forall d, text_without newline lk text -> all_without newline (pretty lk d text).
Proof.
  induction text as [|l r IH]; intros d W; [intros s []|]. apply text_cons in W. destruct W as [Wl Wr].
  destruct l as [n|g n| |n|a b x]; cbn [pretty]; apply all_app; (split; [apply shifted_without|apply IH, Wr]);
    try (apply opening_without; exact Wl); intros s [<-|[]]; try lit; apply line_without, Wl.
Qed.

(* The lines of a group. *)
Lemma lines_text_fold lk l : text_without newline lk l -> forall x, fold_left (put_line lk) l (mid x 0 true) = mid (x ++ as_lines (shifted 1 (map (line_text lk) l))) 0 true.
Proof.
  induction l as [|t l IH]; intros W x.
  - cbn. rewrite str_nil. reflexivity.
  - apply text_cons in W. destruct W as [Wt Wl]. cbn [fold_left]. unfold put_line at 2. rewrite indent_mid. change (Z.max 0 (0 + 2)) with 2%Z.
    rewrite put_line_start by (apply line_without, Wt). rewrite indent_mid. change (Z.max 0 (2 + -2)) with 0%Z. rewrite IH by exact Wl.
    cbn [map shifted as_lines fold_right]. unfold as_line. fold eol. change (Z.to_nat 2) with (2 * 1)%nat. rewrite !str_assoc. reflexivity.
Qed.
Lemma lines_text_pretty lk l : Forall plain l -> text_without newline lk l -> lines_text lk l = as_lines (pretty lk 1 l).
Proof.
  intros P W. rewrite pretty_plain by exact P. unfold lines_text. destruct l as [|t l]; [reflexivity|].
  assert (E : fold_left (put_line lk) (t :: l) new_stream = fold_left (put_line lk) (t :: l) (mid EmptyString 0 true)) by reflexivity.
  rewrite E, lines_text_fold by exact W. reflexivity.
Qed.
Lemma getLevel_len g : getLevel g = (List.length g - 1)%nat.
Proof.
  induction g as [|x g IH]; [reflexivity|]. cbn [getLevel]. destruct g as [|y g]; [reflexivity|]. rewrite IH. cbn [List.length]. lia.
Qed.
Lemma colour_eq g : nth (Nat.min (getLevel g) (List.length colours - 1)) colours EmptyString = block_colour g.
Proof.
  rewrite getLevel_len. unfold block_colour, colours. generalize (List.length g - 1)%nat as n. intro n.
  do 8 (destruct n as [|n]; [reflexivity|]). cbn [List.length]. rewrite Nat.min_r by lia. cbn. destruct n; reflexivity.
Qed.
Lemma group_text_lines nm lk g : g <> [] -> group_text nm lk g = as_lines (opening lk (LCluster g (group_name nm g))).
Proof.
  intros _. unfold group_text. rewrite colour_eq. cbn [opening]. rewrite as_lines_app. destruct (lk_groups lk); cbn [as_lines fold_right]; unfold as_line, eol, quote; rewrite ?str_assoc, ?str_nil; reflexivity.
Qed.
