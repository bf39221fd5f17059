(* C110: what a graph knows of its buffers, from a recording to the next. *)
From Verif Require Import Spec_Buffers Spec_Record Proof_Buffers Props_Record.
From Coq Require Import List.
Import ListNotations.
Local Open Scope N_scope.

(** C110: the barriers on a buffer recorded by a graph start from what the graphs it depends on know of it, each one goes on where the one
    before stopped, and the last one stops in the final access state of the graph: whatever the passes are, so long as their callbacks
    tell the context of the barriers they record on it. *)
Theorem C110_barriers_linked : forall e g deps passes b,
  (forall tag, follows b (e_action e tag)) -> (forall p, In p passes -> callbacks p (follows b)) ->
  let r := record_graph e g deps passes in linked b (handed b deps) (snd (fst r)) (final_access (fst (fst r)) b).
Proof. exact graph_linked. Qed.
Print Assumptions C110_barriers_linked.

(* The chain goes on from a graph to one that depends on it. *)
Theorem C110_linked_across_graphs : forall e1 e2 g1 g2 deps passes1 passes2 b,
  (forall tag, follows b (e_action e1 tag)) -> (forall p, In p passes1 -> callbacks p (follows b)) ->
  (forall tag, follows b (e_action e2 tag)) -> (forall p, In p passes2 -> callbacks p (follows b)) ->
  let r1 := record_graph e1 g1 deps passes1 in
  let r2 := record_graph e2 g2 [g_final (fst (fst r1))] passes2 in
  linked b (handed b deps) (snd (fst r1) ++ snd (fst r2)) (final_access (fst (fst r2)) b).
Proof.
  intros e1 e2 g1 g2 deps passes1 passes2 b A1 A2 B1 B2 r1 r2.
  eapply linked_app; [apply (graph_linked e1 g1 deps passes1 b A1 A2)|].
  pose proof (graph_linked e2 g2 [g_final (fst (fst r1))] passes2 b B1 B2) as H. cbv zeta in H. fold r2 in H.
  cbn [handed] in H. unfold final_access in *. unfold getAccessState at 1. fold r1. exact H.
Qed.
Print Assumptions C110_linked_across_graphs.

(* The final access state of a buffer is that of its last use as storage buffer, transfer buffer or implicit buffer, by a pass that runs,
   when nothing but declarations concerns the buffer in this pass and after it: whatever comes before. *)
Theorem C110_last_use_partial : forall e g deps l1 p l2 b ba a bb m wanted,
  e_enabled e (rp_id p) = true -> rp_buffers p = ba ++ a :: bb ->
  declared_as a m wanted -> tracked_use m = true -> attach_buffer a (rp_index p) = b ->
  (forall x, In x bb -> other_buffer b (rp_index p) x) -> callbacks p (ignores b) ->
  (forall tag, ignores b (e_action e tag)) -> (forall q, In q l2 -> ignoring_pass e b q) ->
  final_access (fst (fst (record_graph e g deps (l1 ++ p :: l2)))) b = use_state m wanted (rp_compute p).
Proof. exact graph_last_use. Qed.
Print Assumptions C110_last_use_partial.

(* A graph that does not use a buffer records no barrier on it and knows of it what the graphs it depends on know. *)
Theorem C110_not_used : forall e g deps passes b,
  (forall tag, ignores b (e_action e tag)) -> (forall p, In p passes -> ignoring_pass e b p) ->
  let r := record_graph e g deps passes in final_access (fst (fst r)) b = handed b deps /\ no_barrier b (snd (fst r)).
Proof. exact graph_ignoring. Qed.
Print Assumptions C110_not_used.

(* A compute pass that writes the buffer 9, and one that reads it. *)
Definition writes9 : rpass := marker_pass 1 [] [outB 1 9 0 64; outB 1 8 0 64] true.
Definition reads9 : rpass := marker_pass 2 [] [inB 2 9 0 64] false.
Definition looks9 : rpass := marker_pass 2 [] [uniB 2 9 0 64] false.
Lemma markers_ignore b id images buffers compute : callbacks (marker_pass id images buffers compute) (ignores b).
Proof.
  intros f [[]|[[]| ->]] c i. split; [reflexivity|]. intros b' o s ss ds sa da [H|[]]. discriminate.
Qed.
Lemma markers_follow b id images buffers compute : callbacks (marker_pass id images buffers compute) (follows b).
Proof. intros f [[]|[[]| ->]] c i. reflexivity. Qed.
Example C110_applies :
  let r := record_graph all_on empty_graph [] [writes9; reads9] in
  callbacks writes9 (follows 9) /\ callbacks reads9 (follows 9) /\ callbacks reads9 (ignores 9) /\ (forall tag, ignores 9 (e_action all_on tag)) /\
  declared_as (inB 2 9 0 64) addInputStorageBuffer no_pstate /\ other_buffer 9 0 (outB 1 8 0 64) /\ other_buffer 9 0 (uniB 2 9 0 64) /\
  final_access (fst (fst r)) 9 = {| ps_access := A_SHADER_READ; ps_stage := S_FRAGMENT |} /\
  linked 9 bottom_state (snd (fst r)) (final_access (fst (fst r)) 9) /\ ~ no_barrier 9 (snd (fst r)).
Proof.
  cbv zeta. split; [apply markers_follow|]. split; [apply markers_follow|]. split; [apply markers_ignore|].
  split. { intros tag c i. split; [reflexivity|]. cbn. first [apply no_barrier_nil | intros b' o s ss ds sa da H; destruct H as [H|[]]; discriminate]. }
  split; [exists 2, [9], 0, 0, 0, 64, 0; repeat split|]. split; [left; discriminate|].
  split; [right; exists addUniformBuffer, no_pstate; split; [exists 2, [9], 0, 0, 0, 64, 0; repeat split|reflexivity]|].
  split; [reflexivity|]. split; [vm_compute; repeat split|]. intro H. eapply H; [|reflexivity].
  vm_compute. right. right. left. reflexivity.
Qed.

(* A last use as uniform buffer is not in the final state: what is known is the use before it. *)
Theorem C110_uniform_refuted : forall m, tracked_use m = false -> forall binding bview off size flag e g deps, e_enabled e 2 = true -> e_enabled e 1 = true ->
  (forall tag, ignores 9 (e_action e tag)) ->
  let q := marker_pass 2 [] [declare_buffer m 2 [9] binding bview off size no_pstate flag] false in
  final_access (fst (fst (record_graph e g deps [writes9; q]))) 9 = {| ps_access := A_SHADER_WRITE; ps_stage := S_COMPUTE |}.
Proof.
  intros m T binding bview off size flag e g deps E2 E1 Hu q.
  change {| ps_access := A_SHADER_WRITE; ps_stage := S_COMPUTE |} with (use_state addOutputStorageBuffer no_pstate (rp_compute writes9)).
  apply (graph_last_use e g deps [] writes9 [q] 9 [] (outB 1 9 0 64) [outB 1 8 0 64] addOutputStorageBuffer no_pstate).
  - exact E1.
  - reflexivity.
  - exists 1, [9], 0, 0, 0, 64, 0. repeat split.
  - reflexivity.
  - reflexivity.
  - intros x [<-|[]]. left. discriminate.
  - apply markers_ignore.
  - exact Hu.
  - intros x [<-|[]] _. split; [|apply markers_ignore]. intros a [<-|[]]. right. exists m, no_pstate. split; [|exact T].
    exists 2, [9], binding, bview, off, size, 0. split; [|split; reflexivity]. destruct m; try discriminate T; reflexivity.
Qed.
Print Assumptions C110_uniform_refuted.

(* A graph recorded again does not go on from its own final state: the chain is broken between two recordings of a same graph. *)
Theorem C110_recorded_again_refuted :
  let r1 := record_graph all_on empty_graph [] [reads9; writes9] in
  let r2 := record_graph all_on (fst (fst r1)) [] [reads9; writes9] in
  final_access (fst (fst r1)) 9 = {| ps_access := A_SHADER_WRITE; ps_stage := S_COMPUTE |} /\
  ~ linked 9 bottom_state (snd (fst r1) ++ snd (fst r2)) (final_access (fst (fst r2)) 9).
Proof.
  cbv zeta. split; [reflexivity|]. vm_compute. intros (_ & _ & _ & _ & H & _). discriminate.
Qed.
Print Assumptions C110_recorded_again_refuted.
