(* C113: the passes recorded again when their pipeline is reset. *)
From Verif Require Import Spec_Again Spec_Record Proof_Again Proof_Overlap Props_Record.
From Coq Require Import List.
Import ListNotations.
Local Open Scope N_scope.

Lemma again_context k g0 ops e deps passes p agains : ac_resettable k (rp_id p) = true -> NoDup (map rp_id passes) -> In p passes -> Forall is_again agains ->
  let s := after_ops k g0 ops in let s' := after_ops k g0 (ops ++ AgRecord e deps passes :: agains) in
  exists c before after, recorded_from e (ag_graph s) deps passes p c before after /\
    records k s (AgRecord e deps passes) = before ++ snd (recordInto e (ag_graph s) p c) ++ after /\
    ag_saved s' (rp_id p) (rp_index p) = c /\ ag_graph s' = fst (fst (record_graph e (ag_graph s) deps passes)).
Proof.
  intros R Nd Hp Ha s s'. apply in_split in Hp as (l1 & l2 & ->).
  destruct (graph_trace e (ag_graph s) deps l1 p l2) as (c & tr1 & x & tr2 & before & after & E1 & E2 & E3 & E4). exists c, before, after.
  unfold s', after_ops. rewrite run_app, run_cons. fold (after_ops k g0 ops). fold s.
  destruct (agains_keep k agains Ha (fst (again_step k s (AgRecord e deps (l1 ++ p :: l2))))) as [A B].
  rewrite A, B. unfold records, recorded_from. cbn [again_step].
  destruct (record_graph e (ag_graph s) deps (l1 ++ p :: l2)) as [[g' cmds] tr]. cbn [fst snd ag_graph ag_saved] in *. subst tr.
  split; [split; [exists x; apply in_or_app; right; left; reflexivity|exact E4]|]. split; [exact E4|]. split; [|reflexivity].
  fold (saves k (tr1 ++ (p, c, x) :: tr2) (ag_saved s)). apply saves_one; [exact R|]. rewrite E3.
  rewrite map_app in Nd. cbn [map] in Nd. apply NoDup_remove_2 in Nd. intro H. apply Nd, in_or_app. right. exact H.
Qed.

(** C113.  In every history, the pass recorded again is recorded from the context it had in the last recording of its graph with the
    same index, however many passes were recorded again in between; the graph then knows what this recording left. *)
Theorem C113_same_context : forall k g0 ops e deps passes p agains e' p',
  ac_resettable k (rp_id p) = true -> NoDup (map rp_id passes) -> In p passes -> Forall is_again agains ->
  rp_id p' = rp_id p -> rp_index p' = rp_index p -> (rp_index p < ac_count k (rp_id p))%nat ->
  let s := after_ops k g0 ops in let s' := after_ops k g0 (ops ++ AgRecord e deps passes :: agains) in
  exists c before after, recorded_from e (ag_graph s) deps passes p c before after /\
    records k s (AgRecord e deps passes) = before ++ snd (recordInto e (ag_graph s) p c) ++ after /\
    records k s' (AgAgain e' p') = snd (recordInto e' (fst (fst (record_graph e (ag_graph s) deps passes))) p' c).
Proof.
  intros k g0 ops e deps passes p agains e' p' R Nd Hp Ha Ei Ex Hc s s'.
  destruct (again_context k g0 ops e deps passes p agains R Nd Hp Ha) as (c & b & a & A & B & C & D). fold s in A, B, D. fold s' in C, D.
  exists c, b, a. split; [exact A|]. split; [exact B|]. unfold records. cbn [again_step]. rewrite Ei, Ex, (proj2 (PeanoNat.Nat.ltb_lt _ _) Hc). cbn [snd]. rewrite C, D. reflexivity.
Qed.
Print Assumptions C113_same_context.

(** With the same pass, the commands are those it has in the graph, once the graph is settled: what the pass reads is known from the passes
    before or from the declared inputs, or the recording left of it what the one before had left. *)
Theorem C113_same_commands_partial : forall k g0 ops e deps passes p agains,
  ac_resettable k (rp_id p) = true -> NoDup (map rp_id passes) -> In p passes -> Forall is_again agains ->
  (rp_index p < ac_count k (rp_id p))%nat -> regular_pass e p ->
  let s := after_ops k g0 ops in let s' := after_ops k g0 (ops ++ AgRecord e deps passes :: agains) in
  exists c before after, recorded_from e (ag_graph s) deps passes p c before after /\
    (never_undefined (rc_images c) -> rc_implicit c = [] -> (forall a, In a (rp_images p) -> settled (ag_graph s) (ag_graph s') c p a) ->
     records k s (AgRecord e deps passes) = before ++ records k s' (AgAgain e p) ++ after).
Proof.
  intros k g0 ops e deps passes p agains R Nd Hp Ha Hc Hr s s'.
  destruct (again_context k g0 ops e deps passes p agains R Nd Hp Ha) as (c & b & a & A & B & C & D). fold s in A, B, D. fold s' in C, D.
  exists c, b, a. split; [exact A|]. intros Hn Hi Hs. rewrite B. unfold records. cbn [again_step]. rewrite (proj2 (PeanoNat.Nat.ltb_lt _ _) Hc). cbn [snd]. rewrite C.
  rewrite (into_same e p (ag_graph s) (ag_graph s')); [reflexivity| |exact Hr|split; assumption|exact Hs].
  rewrite D. unfold record_graph. destruct (record_loop _ _ _ _) as [[c3 k3] tr]. reflexivity.
Qed.
Print Assumptions C113_same_commands_partial.

(* An index the pass has not: nothing is recorded. *)
Theorem C113_out_of_range : forall k s e p, (ac_count k (rp_id p) <= rp_index p)%nat -> again_step k s (AgAgain e p) = (s, []).
Proof. intros k s e p H. cbn [again_step]. rewrite (proj2 (PeanoNat.Nat.ltb_ge _ _) H). reflexivity. Qed.
Print Assumptions C113_out_of_range.

(** Whatever is recorded again, the recordings of the graph are those of the history without it. *)
Theorem C113_graph_unaffected : forall k g0 ops,
  graph_records k (new_again g0) ops = graph_records k (new_again g0) (filter recording ops).
Proof. intros k g0 ops. apply graph_records_split. Qed.
Print Assumptions C113_graph_unaffected.

(* A pass that samples an image, alone in its graph; all the passes can be reset and have one index. *)
Definition all_again : again_conf := {| ac_resettable := fun _ => true; ac_count := fun _ => 1%nat |}.
Definition samples : rpass := marker_pass 2 [declare_image addSampledView 2 [vw 1 1 (rng 0 1 0 1)] 0 0 0 0] [] false.
Definition draws : rpass := marker_pass 1 [declare_image addOutputStorageView 1 [vw 1 1 (rng 0 1 0 1)] 0 0 0 0] [] true.

(* False after the first recording: the graph brings the image from UNDEFINED, the pass recorded again finds it where the graph left it
   and records no barrier. *)
Theorem C113_first_frame_refuted :
  let s := new_again empty_graph in let s' := after_ops all_again empty_graph [AgRecord all_on [] [samples]] in
  existsb is_image_barrier (records all_again s (AgRecord all_on [] [samples])) = true /\
  existsb is_image_barrier (records all_again s' (AgAgain all_on samples)) = false.
Proof. vm_compute. repeat split. Qed.
Print Assumptions C113_first_frame_refuted.

(* A pass that cannot be reset, or whose graph was not recorded yet, is recorded again as the first of a graph. *)
Theorem C113_not_kept : forall k g0 ops e p, (ac_resettable k (rp_id p) = false \/ forallb (fun o => negb (recording o)) ops = true) ->
  (rp_index p < ac_count k (rp_id p))%nat ->
  records k (after_ops k g0 ops) (AgAgain e p) = snd (recordInto e (ag_graph (after_ops k g0 ops)) p new_rctx).
Proof.
  intros k g0 ops e p H Hc. unfold records. cbn [again_step]. rewrite (proj2 (PeanoNat.Nat.ltb_lt _ _) Hc). cbn [snd].
  rewrite (never_saved k (rp_id p) (rp_index p) ops g0 H). reflexivity.
Qed.
Print Assumptions C113_not_kept.
(* The image another pass of the graph writes before is then brought from UNDEFINED. *)
Theorem C113_not_recorded_refuted :
  nth_error (records all_again (new_again empty_graph) (AgAgain all_on samples)) 2 =
    Some (CImageBarrier 1 (rng 0 1 0 1) S_HOST S_FRAGMENT 0 A_SHADER_READ L_UNDEFINED L_SHADER_READ_ONLY) /\
  nth_error (records all_again (new_again empty_graph) (AgRecord all_on [] [draws; samples])) 8 =
    Some (CImageBarrier 1 (rng 0 1 0 1) S_BOTTOM S_FRAGMENT 0 A_SHADER_READ L_GENERAL L_SHADER_READ_ONLY).
Proof. vm_compute. split; reflexivity. Qed.
Print Assumptions C113_not_recorded_refuted.

(* A frame, then both passes recorded again: the commands are those of the frame for the pass that reads what the other wrote. *)
Example C113_applies :
  let ops := [AgRecord all_on [] [draws; samples]; AgAgain all_on samples; AgAgain all_on draws] in
  let s := after_ops all_again empty_graph ops in let frame := records all_again (new_again empty_graph) (AgRecord all_on [] [draws; samples]) in
  length frame = 12%nat /\ records all_again s (AgAgain all_on samples) = skipn 6 frame /\ records all_again s (AgAgain all_on draws) = firstn 6 frame /\
  NoDup (map rp_id [draws; samples]) /\ regular_pass all_on draws /\ regular_pass all_on samples /\
  exists c before after, recorded_from all_on empty_graph [] [draws; samples] samples c before after /\ never_undefined (rc_images c) /\ rc_implicit c = [] /\
    forall a, In a (rp_images samples) -> settled empty_graph (ag_graph s) c samples a.
Proof.
  cbv zeta. split; [vm_compute; reflexivity|]. split; [vm_compute; reflexivity|]. split; [vm_compute; reflexivity|].
  split; [repeat constructor; cbn; intuition discriminate|].
  assert (V : view_ok (vw 1 1 (rng 0 1 0 1))) by (split; [vm_compute; repeat split; discriminate|discriminate]).
  split; [intros a [<-|[]]; split; [exact V|discriminate]|]. split; [intros a [<-|[]]; split; [exact V|discriminate]|].
  set (tr := snd (record_graph all_on empty_graph [] [draws; samples])).
  set (c := match nth_error tr 1 with Some (_, c, _) => c | None => new_rctx end).
  exists c, (firstn 6 (snd (fst (record_graph all_on empty_graph [] [draws; samples])))), [].
  split; [split; [exists 0; right; left; reflexivity|vm_compute; reflexivity]|]. split; [|split; [reflexivity|]].
  - intros i m layer l mip st. change (rc_images c) with [(1, [(0, [(0, {| ls_layout := 1; ls_state := {| ps_access := 0; ps_stage := 8192 |} |})])])]. cbn [mfind].
    destruct (N.eqb i 1); [|discriminate]. intro E. injection E as <-. cbn [mfind]. destruct (N.eqb layer 0); [|discriminate]. intro E. injection E as <-. cbn [mfind].
    destruct (N.eqb mip 0); [|discriminate]. intro E. injection E as <-. discriminate.
  - intros a [<-|[]] _. left. vm_compute. discriminate.
Qed.
