(* Render passes: what is made. *)
From Verif Require Import Spec_Target Proof_Layout Proof_Record Proof_Device Proof_Device2 Proof_Device3.
From Coq Require Import PeanoNat.
Local Open Scope N_scope.

Lemma positions_app l : forall n a, positions n (l ++ [a]) = positions n l ++ [(n + N.of_nat (length l), a)].
Proof.
  induction l as [|b l IH]; intros n a; cbn [positions app length]; [rewrite N.add_0_r; reflexivity|]. rewrite IH. replace (n + N.of_nat (S (length l))) with (n + 1 + N.of_nat (length l)) by lia. reflexivity.
Qed.
Lemma positions_nth l : forall n i a, In (i, a) (positions n l) <-> exists k, nth_error l k = Some a /\ i = n + N.of_nat k.
Proof.
  induction l as [|b l IH]; intros n i a; cbn [positions].
  - split; [intros []|]. intros (k & H & _). destruct k; discriminate.
  - split.
    + intros [E|H]; [injection E as <- <-; exists 0%nat; split; [reflexivity|cbn; lia]|]. apply IH in H. destruct H as (k & H & ->). exists (S k). split; [exact H|lia].
    + intros ([|k] & H & ->); [injection H as <-; left; f_equal; cbn; lia|]. right. apply IH. exists k. split; [exact H|lia].
Qed.
Lemma current_next g c im vt r c' s : getCurrentLayoutState g c im vt r = (c', s) -> rc_next c' = rc_next c.
Proof.
  unfold getCurrentLayoutState. destruct (negb _); [intro E; injection E as <- _; reflexivity|]. destruct (negb _); [intro E; injection E as <- _; reflexivity|].
  destruct (negb _); intro E; injection E as <- _; reflexivity.
Qed.
Lemma next_ext e g c c' p v : rc_next c' = rc_next c -> getNextLayoutState e g c' p v = getNextLayoutState e g c p v.
Proof. intro H. unfold getNextLayoutState. rewrite H. reflexivity. Qed.
Lemma set_views_next (l : list view) s : forall c, rc_next (fold_left (fun c x => set_view c x s) l c) = rc_next c.
Proof. induction l as [|x l IH]; intro c; [reflexivity|]. cbn [fold_left]. rewrite IH. reflexivity. Qed.

(* The lists filled for a render pass. *)
Record filled (e : env) (g : rgraph) (p : rpass) (i : nat) (c : rctx) (l : list attach) (b : rpbuild) : Prop := {
  fl_next : rc_next (rb_ctx b) = rc_next c;
  fl_descs : Forall2 (fun a d => describes i a d /\ ad_final d = ls_layout (getNextLayoutState e g c p (resolveView (attach_view a i) i))) (filter isTarget l) (rb_descs b);
  fl_entries : Forall2 (fun d x => ad_initial d = ls_layout (en_input x) /\ ad_final d = ls_layout (en_output x)) (rb_descs b) (rb_entries b);
  fl_clear : rb_clear b = map ia_misc (filter isTarget l);
  fl_blend : rb_blend b = map ia_misc (filter (fun a => negb (depth_target a)) (filter isTarget l));
  fl_colours : rb_colours b = map (reference (e_separate e)) (filter (fun x => negb (depth_target (snd x))) (positions 0 (filter isTarget l)));
  fl_depth : rb_depth b = last (map (reference (e_separate e)) (filter (fun x => depth_target (snd x)) (positions 0 (filter isTarget l)))) (0, 0) }.
Lemma last_snoc {A} (l : list A) x d : last (l ++ [x]) d = x.
Proof. apply last_last. Qed.
Lemma Forall2_len {A B} (R : A -> B -> Prop) l m : Forall2 R l m -> length l = length m.
Proof. induction 1; cbn; congruence. Qed.
Lemma filled_step e g p i c l b a : filled e g p i c l b -> filled e g p i c (l ++ [a]) (target_step e g p i b a).
Proof.
  intros [Nx Ds En Cl Bl Co De]. unfold target_step. destruct (isTarget a) eqn:T.
  2:{ constructor; rewrite ?filter_app; cbn [filter]; rewrite ?T, ?app_nil_r; assumption. }
  cbn zeta. set (v := attach_view a i). set (r := resolveView v i).
  destruct (getCurrentLayoutState g (rb_ctx b) (v_image r) (v_type r) (v_range r)) as [c1 cur] eqn:E.
  pose proof (current_next _ _ _ _ _ _ _ E) as N1. set (next := getNextLayoutState e g c1 p r).
  assert (Nq : next = getNextLayoutState e g c p r) by (unfold next; apply next_ext; congruence).
  set (from := if isInput a then cur else makeLayoutState L_UNDEFINED).
  pose proof (Forall2_len _ _ _ Ds) as Len.
  unfold addAttach. cbn [with_ctx rb_ctx rb_descs rb_entries rb_clear rb_blend rb_colours rb_depth].
  set (d0 := {| ad_format := v_format v; ad_load := if N.eqb (ls_layout from) L_UNDEFINED then LO_CLEAR else ia_load a; ad_store := ia_store a; ad_sload := ia_sload a;
     ad_sstore := ia_sstore a; ad_initial := ls_layout from; ad_final := ls_layout next |}).
  assert (D0 : describes i a d0 /\ ad_final d0 = ls_layout (getNextLayoutState e g c p (resolveView (attach_view a i) i))).
  { split; [|cbn; rewrite Nq; reflexivity]. unfold describes. cbn [d0 ad_format ad_store ad_sload ad_sstore ad_initial ad_load]. fold v.
    split; [reflexivity|]. split; [reflexivity|]. split; [reflexivity|]. split; [reflexivity|]. split; [intros ->; reflexivity|]. split; [intro H; apply N.eqb_neq in H; rewrite H; reflexivity|].
    intro H. unfold from. rewrite H. reflexivity. }
  change (orb (isDepthAttach a) (isStencilAttach a)) with (depth_target a).
  destruct (depth_target a) eqn:Dt; constructor; cbn [with_depth with_colour rb_ctx rb_descs rb_entries rb_clear rb_blend rb_colours rb_depth];
    rewrite ?filter_app; cbn [filter]; rewrite ?T.
  all: try (rewrite set_views_next; congruence).
  all: try (apply Forall2_app; [assumption|constructor; [|constructor]]).
  all: try exact D0.
  all: try (split; reflexivity).
  all: try (rewrite map_app, Cl; reflexivity).
  all: try (rewrite map_app, Bl; cbn [filter]; rewrite Dt; cbn [negb map]; rewrite ?app_nil_r; reflexivity).
  all: rewrite positions_app, filter_app, map_app; cbn [filter snd]; rewrite Dt; cbn [negb map]; rewrite ?app_nil_r, ?last_snoc; try assumption.
  - unfold reference. cbn [fst snd]. rewrite N.add_0_l, Len. reflexivity.
  - rewrite Co. unfold reference. cbn [fst snd]. rewrite N.add_0_l, Len. reflexivity.
Qed.
Lemma filled_all e g p i c : filled e g p i c (rp_images p) (build_targets e g p i c).
Proof.
  unfold build_targets. assert (G : forall l done b, filled e g p i c done b -> filled e g p i c (done ++ l) (fold_left (target_step e g p i) l b)).
  { induction l as [|a l IH]; intros done b H; [rewrite app_nil_r; exact H|]. cbn [fold_left].
    replace (done ++ a :: l) with ((done ++ [a]) ++ l) by (rewrite <- app_assoc; reflexivity). apply IH, filled_step, H. }
  apply (G _ []). constructor; try reflexivity; constructor.
Qed.
(* A depth target always has a layout. *)
Lemma depth_layout a sep : depth_target a = true -> a_getImageLayout a sep <> 0.
Proof.
  intros H. assert (Im : isImage a = true /\ i_isTransition (ia_flags a) = false).
  { unfold depth_target, isDepthAttach, isStencilAttach, i_isDepth, i_isStencil in H. destruct (isImage a); [|discriminate]. split; [reflexivity|].
    destruct (i_isTransition (ia_flags a)); [|reflexivity]. rewrite !andb_false_r in H. discriminate. }
  destruct Im as [Im It]. unfold a_getImageLayout, i_getImageLayout. rewrite It.
  repeat match goal with |- context [if ?b then _ else _] => destruct b end; discriminate.
Qed.
