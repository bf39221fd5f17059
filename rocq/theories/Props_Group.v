(* C06-C08: pass groups. *)
From Verif Require Import Spec_Group Proof_Group.
Local Open Scope N_scope.

(* A history that creates nested groups and passes out of order, with a duplicate and a re-opened group. *)
Definition hist : list gop :=
  [CreateGroup [] "a"; CreatePass [0%nat] "p"; CreatePass [] "p"; CreateGroup [0%nat] "b";
   CreatePass [0%nat; 0%nat] "p"; CreatePass [0%nat] "p"; CreateGroup [] "a"; CreateGroup [] "c"; CreatePass [1%nat] "q"]%string.
Example hist_runs :
  snd (grun (ginit "graph") hist) =
  [GroupRef [0%nat] true; NewPass 1 "p"; NewPass 2 "p"; GroupRef [0%nat; 0%nat] true; NewPass 3 "p";
   DuplicateName; GroupRef [0%nat] false; GroupRef [1%nat] true; NewPass 4 "q"] /\
  N.of_nat (List.length hist) < 2 ^ 32.
Proof. vm_compute. split; reflexivity. Qed.

(** C06. *)
Theorem C06_pass_ids_and_names : forall name ops,
  N.of_nat (List.length ops) < 2 ^ 32 ->
  let st := grun (ginit name) ops in
  map fst (created_passes (snd st)) = one_to (List.length (created_passes (snd st))) /\
  NoDup (map fst (listPasses (fst st))) /\
  (forall path sub, subgroup path (fst st) = Some sub -> NoDup (map snd (g_passes sub))).
Proof. exact pass_ids_dense. Qed.
Print Assumptions C06_pass_ids_and_names.

Theorem C06_duplicate_rejected_without_effect : forall g path name sub,
  subgroup path g = Some sub ->
  (In name (map snd (g_passes sub)) -> gstep g (CreatePass path name) = (g, DuplicateName)) /\
  (~ In name (map snd (g_passes sub)) -> exists id, snd (gstep g (CreatePass path name)) = NewPass id name).
Proof. exact duplicate_rejected. Qed.
Print Assumptions C06_duplicate_rejected_without_effect.

(** C07. *)
Theorem C07_create_group_idempotent : forall g path name sub,
  subgroup path g = Some sub ->
  exists k c, snd (gstep g (CreateGroup path name)) = GroupRef (path ++ [k])
        (if existsb (fun c => String.eqb (g_name c) name) (g_groups sub) then false else true) /\
    subgroup (path ++ [k]) (fst (gstep g (CreateGroup path name))) = Some c /\ g_name c = name /\
    (In name (map g_name (g_groups sub)) -> fst (gstep g (CreateGroup path name)) = g) /\
    (~ In name (map g_name (g_groups sub)) ->
       k = List.length (g_groups sub) /\ g_passes c = [] /\ g_groups c = [] /\
       g_id c = u32 (countGroups g + 1)).
Proof. exact create_group_spec. Qed.
Print Assumptions C07_create_group_idempotent.

Theorem C07_group_ids_unique : forall name ops,
  N.of_nat (List.length ops) < 2 ^ 32 ->
  let st := grun (ginit name) ops in
  Permutation (map g_id (all_groups (fst st))) (0 :: one_to (created_groups (snd st))) /\
  NoDup (map g_id (all_groups (fst st))) /\
  (forall path sub, subgroup path (fst st) = Some sub -> NoDup (map g_name (g_groups sub))).
Proof. exact group_ids_unique. Qed.
Print Assumptions C07_group_ids_unique.

(** C08. *)
Theorem C08_list_passes_complete : forall name ops,
  N.of_nat (List.length ops) < 2 ^ 32 ->
  let st := grun (ginit name) ops in
  Permutation (listPasses (fst st)) (created_passes (snd st)) /\
  NoDup (listPasses (fst st)) /\
  countPasses (fst st) = N.of_nat (List.length (created_passes (snd st))).
Proof. exact list_is_created. Qed.
Print Assumptions C08_list_passes_complete.
