(* C109: the full name of a pass. *)
From Verif Require Import Spec_Names Spec_Group Proof_Names.
From Coq Require Import Ascii Lia List.
Import ListNotations.
Local Open Scope N_scope.

(* A history with nested groups: passes of the same name in groups of the same name. *)
Definition nested : list gop :=
  [CreateGroup [] "x"; CreateGroup [] "y"; CreateGroup [0%nat] "b"; CreateGroup [1%nat] "b";
   CreatePass [0%nat; 0%nat] "p"; CreatePass [1%nat; 0%nat] "p"; CreatePass [] "p"; CreatePass [1%nat; 0%nat] "q"]%string.
Lemma by_test s : (forallb (fun c => negb (Ascii.eqb c "/")) (list_ascii_of_string s)) = true -> no_slash s.
Proof.
  induction s as [|a s IH]; intros H i E; [destruct i; discriminate|]. cbn in H. apply andb_prop in H. destruct H as [H1 H2].
  destruct i as [|i]; cbn in E; [injection E as ->; discriminate|]. exact (IH H2 i E).
Qed.
Example nested_names : Forall (fun o => no_slash (op_name o)) nested /\
  let g := fst (grun (ginit "my/graph") nested) in
  pass_full_name g [0%nat; 0%nat] 0 = Some "my/graph/x/b/p"%string /\ pass_full_name g [1%nat; 0%nat] 0 = Some "my/graph/y/b/p"%string /\
  pass_full_name g [1%nat; 0%nat] 1 = Some "my/graph/y/b/q"%string /\ pass_full_name g [] 0 = Some "my/graph/p"%string /\
  the_pass g [1%nat; 0%nat] 1 = Some (4, "q"%string).
Proof. split; [repeat constructor; apply by_test; reflexivity|]. vm_compute. repeat split; reflexivity. Qed.

(** C109: the full name of a pass is the name of the graph, the names of the groups down to its own, and its name, separated by slashes. *)
Theorem C109_full_name_is_the_path : forall g path k,
  pass_full_name g path k =
  match the_pass g path k with Some p => Some (String.concat "/" (names_along path g ++ [snd p])) | None => None end.
Proof. exact full_name_path. Qed.
Print Assumptions C109_full_name_is_the_path.

(* It never changes, whatever groups and passes are created afterwards. *)
Theorem C109_full_name_stable : forall name ops more path k s,
  pass_full_name (fst (grun (ginit name) ops)) path k = Some s ->
  pass_full_name (fst (grun (ginit name) (ops ++ more))) path k = Some s /\
  the_pass (fst (grun (ginit name) (ops ++ more))) path k = the_pass (fst (grun (ginit name) ops)) path k.
Proof.
  intros name ops more path k s H. rewrite Proof_Group.grun_app. cbn [fst]. rewrite full_name_path in H |- *.
  destruct (the_pass (fst (grun (ginit name) ops)) path k) as [p|] eqn:E; [|discriminate].
  destruct (run_keeps_pass more _ _ _ _ E) as [-> ->]. auto.
Qed.
Print Assumptions C109_full_name_stable.

(* It designates one pass, when no group and no pass has a slash in its name: the name of the graph may. *)
Theorem C109_full_name_identifies_partial : forall name ops path path' k k' s,
  Forall (fun o => no_slash (op_name o)) ops ->
  let g := fst (grun (ginit name) ops) in
  pass_full_name g path k = Some s -> pass_full_name g path' k' = Some s -> path = path' /\ k = k'.
Proof. exact full_names_distinct. Qed.
Print Assumptions C109_full_name_identifies_partial.

(* With a slash in the name of a group, two passes have the same full name. *)
Theorem C109_slash_refuted : forall name, exists ops path path' k k' p p',
  let g := fst (grun (ginit name) ops) in
  the_pass g path k = Some p /\ the_pass g path' k' = Some p' /\ fst p <> fst p' /\ pass_full_name g path k = pass_full_name g path' k'.
Proof.
  intro name.
  exists [CreateGroup [] "a/b"; CreateGroup [] "a"; CreateGroup [1%nat] "b"; CreatePass [0%nat] "p"; CreatePass [1%nat; 0%nat] "p"]%string,
    [0%nat], [1%nat; 0%nat], 0%nat, 0%nat, (1, "p"%string), (2, "p"%string).
  cbv zeta. split; [reflexivity|]. split; [reflexivity|]. split; [discriminate|].
  rewrite !full_name_path. cbn. reflexivity.
Qed.
Print Assumptions C109_slash_refuted.

(* The name with which a pass is shown, registered and exported (its group, a slash and its own) does not designate it, even without
   slashes in the names: groups of the same name in different groups. *)
Theorem C109_group_name_refuted : forall name, exists path path' p p',
  let g := fst (grun (ginit name) nested) in
  the_pass g path 0 = Some p /\ the_pass g path' 0 = Some p' /\ fst p <> fst p' /\
  pass_group_name g path 0 = Some "b/p"%string /\ pass_group_name g path' 0 = Some "b/p"%string /\
  pass_full_name g path 0 <> pass_full_name g path' 0.
Proof.
  intro name. exists [0%nat; 0%nat], [1%nat; 0%nat], (1, "p"%string), (2, "p"%string). cbv zeta.
  split; [reflexivity|]. split; [reflexivity|]. split; [discriminate|]. split; [reflexivity|]. split; [reflexivity|].
  intro E. destruct (pass_full_name (fst (grun (ginit name) nested)) [0%nat; 0%nat] 0) as [s|] eqn:E0.
  - symmetry in E. pose proof (full_names_distinct name nested _ _ _ _ s (proj1 nested_names) E0 E). destruct H. discriminate.
  - rewrite full_name_path in E0. cbn in E0. discriminate.
Qed.
Print Assumptions C109_group_name_refuted.
