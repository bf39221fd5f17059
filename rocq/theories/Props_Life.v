(* C92-C94: the life of the objects of runnable graphs, of their passes and of timers. *)
From Verif Require Import Spec_Life Proof_Layout Proof_Run3 Proof_Life Proof_Life2 Proof_Life3 Proof_Life4.
From Coq Require Import List Permutation Lia.
Import ListNotations.
Local Open Scope N_scope.

(* ---- examples ---- *)
Definition fresh_driver : ldriver := fun log _ => Some (N.succ (fold_right N.max 0 (map th_handle (living_things log)))).
Lemma max_above l h : In h l -> h <= fold_right N.max 0 l.
Proof. induction l as [|x l IH]; cbn; intros I; [contradiction|]. destruct I as [->|I]; [lia|]. specialize (IH I). lia. Qed.
Lemma fresh_honest : honest fresh_driver.
Proof. intros log k h [= <-]. split; [lia|]. intros I. apply max_above in I. lia. Qed.
(* refuses the n-th creation *)
Definition is_created (e : levent) : bool := match e with LCreated _ _ _ _ => true | _ => false end.
Definition refuses (n : nat) : ldriver := fun log k => if Nat.eqb (List.length (filter is_created log)) n then None else fresh_driver log k.
Lemma refuses_honest n : honest (refuses n).
Proof. intros log k h. unfold refuses. destruct (Nat.eqb _ _); [discriminate|]. apply fresh_honest. Qed.
Definition a_pass (n : nat) (t : user_throw) : pass_plan := {| pp_name := "group/pass"; pp_count := n; pp_grows := fun _ => true; pp_throw := t |}.
Definition a_graph (passes : list pass_plan) (t : bool) : graph_plan := {| gp_name := "graph"; gp_resources_throw := false; gp_passes := passes; gp_initialise_throw := t |}.
Definition life_ops : list lop :=
  [ONew 1 (a_graph [a_pass 2 NoThrow; a_pass 1 NoThrow] false); ONewTimer 7 "timer"; ORunGraph 1 false; ONew 2 (a_graph [] false); OReRecord 1 0 1 false; OResetBuffer 1 0 1; ORunGraph 1 true; ORunGraph 2 false; OWaitGraph 2;
   ODelete 2; ORunGraph 1 false; OReRecord 1 1 0 true; ODeleteTimer 7; OWaitGraph 1; ODelete 1].
Lemma life_waits : waits_first life_ops.
Proof.
  intros before id after E. unfold life_ops in E.
  do 15 (destruct before as [|o before]; [try discriminate E; injection E as <- _; reflexivity|cbn [app] in E; injection E as <- E]).
  destruct before; discriminate E.
Qed.
Lemma life_no_throw : no_throw fresh_driver life_ops.
Proof.
  intros before id g after evs E [_ C]. unfold life_ops in E.
  do 15 (destruct before as [|o before]; [try discriminate E; injection E as <- <- _; vm_compute in C; discriminate C|cbn [app] in E; injection E as <- E]).
  destruct before; discriminate E.
Qed.
Lemma no_throw_late d ops : no_throw d ops -> no_late_throw d ops.
Proof. intros H before id g after evs E C. exfalso. exact (H before id g after evs E C). Qed.
Lemma life_deleted : all_deleted life_ops.
Proof. intros graphs id. unfold life_ops. cbn. destruct graphs; cbn; destruct id as [|[?|?|]]; cbn; try reflexivity; repeat match goal with |- context[match ?p with _ => _ end] => destruct p; cbn; try reflexivity end. Qed.

(** C92: over every history of any number of graphs and timers (constructions that succeed or throw at any point, for every answer
    of the driver, recordings and runs that throw or not, re-recordings, waits, destructions), only living objects are used or
    destroyed, never while the device executes them, and command buffers are freed to their pool while it exists -- provided the user
    waits for the fence of a graph before destroying it. *)
Theorem C92_well_used_partial : forall d ops, honest d -> waits_first ops -> well_used (lw_log (lrun d ops)).
Proof. intros d ops Ho Hw. destruct (run_W d ops Ho Hw) as (strict & leak & P & HW & _). exact (st_used _ _ _ _ (w_st _ _ _ _ _ HW)). Qed.
Print Assumptions C92_well_used_partial.
Example C92_well_used_applies : honest fresh_driver /\ waits_first life_ops /\ List.length (lw_log (lrun fresh_driver life_ops)) = 107%nat /\
  In (LFreed 2 18) (lw_log (lrun fresh_driver life_ops)) /\ In (LSubmitted 17 16 15) (lw_log (lrun fresh_driver life_ops)).
Proof. split; [exact fresh_honest|]. split; [exact life_waits|]. vm_compute. split; [reflexivity|]. split; tauto. Qed.

(* The objects of a graph exist as long as it does. *)
Theorem C92_exist_meanwhile : forall d ops id g, honest d -> waits_first ops -> mfind id (lw_graphs (lrun d ops)) = Some g ->
  let log := lw_log (lrun d ops) in
  lives log LQueryPool (lg_queries g) /\ lives log LCommandPool (lg_pool g) /\ lives log LFence (lf_handle (lg_fence g)) /\
  lives log LSemaphore (lg_semaphore g) /\ lives log LBuffer (lg_buffer g) /\
  forall p x, In p (lg_passes g) -> In x (lp_datas p) -> (pd_semaphore x <> 0 -> lives log LSemaphore (pd_semaphore x)) /\ (pd_buffer x <> 0 -> lives log LBuffer (pd_buffer x)) /\
    (lf_handle (pd_fence x) <> 0 -> lives log LFence (lf_handle (pd_fence x))).
Proof.
  intros d ops id g Ho Hw F log. destruct (run_W d ops Ho Hw) as (strict & leak & P & HW & _).
  pose proof (focus _ _ _ _ _ _ _ (w_graphs _ _ _ _ _ HW) F (w_st _ _ _ _ _ HW)) as S.
  assert (L : forall k h p n, In (mkt k h p n) (things_graph g) -> lives log k h). { intros k h p n I. apply (lives_in _ _ _ _ _ _ p n S). apply in_or_app. now left. }
  split; [|split; [|split; [|split; [|split]]]].
  - apply (L _ _ 0 (lg_name g ++ "TimerQueries")%string). right; right. unfold things_members. rewrite !in_app_iff. right; right. right. now left.
  - exact (L _ _ _ _ (pool_in g)).
  - exact (L _ _ _ _ (fence_in g)).
  - exact (L _ _ _ _ (semaphore_in g)).
  - exact (L _ _ _ _ (buffer_in g)).
  - intros p x Ip Ix. assert (D : forall y, In y (things_pd (lg_pool g) (lp_name p) x) -> In y (things_graph g)).
    { intros y Iy. right; right. unfold things_members. rewrite !in_app_iff. right; left. apply in_flat_map. exists p. split; [exact Ip|]. apply in_flat_map. exists x. auto. }
    unfold things_pd, opt in D. split; [|split]; intros Z; eapply L; apply D; rewrite !in_app_iff, (proj2 (N.eqb_neq _ _) Z); [left; now left|right; left; now left|right; right; now left].
Qed.
Print Assumptions C92_exist_meanwhile.
Example C92_exist_meanwhile_applies : exists g, mfind 1 (lw_graphs (lrun fresh_driver (firstn 13 life_ops))) = Some g /\ waits_first (firstn 13 life_ops) /\ List.length (lg_passes g) = 2%nat.
Proof.
  eexists. split; [vm_compute; reflexivity|]. split; [|reflexivity]. intros before id after E. apply (life_waits before id (after ++ skipn 13 life_ops)).
  rewrite <- (firstn_skipn 13 life_ops) at 1. rewrite E, <- app_assoc. reflexivity.
Qed.

(* The destructor does not wait: destroying a graph that was run and not waited for destroys objects in use. *)
Theorem C92_not_waited_refuted : exists ops, ~ well_used (lw_log (lrun fresh_driver ops)).
Proof.
  exists [ONew 1 (a_graph [a_pass 1 NoThrow] false); ORunGraph 1 false; ODelete 1].
  set (log := lw_log (lrun fresh_driver [ONew 1 (a_graph [a_pass 1 NoThrow] false); ORunGraph 1 false; ODelete 1])). intros H.
  specialize (H (firstn 23 log) (LDestroyed LSemaphore 4) (skipn 24 log) ltac:(vm_compute; reflexivity)).
  destruct H as [_ H]. apply H. exists 5, 4, 3. split; [vm_compute; now left|reflexivity].
Qed.
Print Assumptions C92_not_waited_refuted.

(** Once every graph and timer is destroyed nothing lives any more, and everything was destroyed exactly as many times as it was
    created -- provided no construction throws once its semaphore exists. *)
Theorem C92_all_destroyed_partial : forall d ops, honest d -> waits_first ops -> no_late_throw d ops -> all_deleted ops ->
  living_things (lw_log (lrun d ops)) = [] /\
  forall k h, k <> LBuffer -> creations k h (lw_log (lrun d ops)) = destructions k h (lw_log (lrun d ops)).
Proof.
  intros d ops Ho Hw Hn Hd. destruct (run_W d ops Ho Hw) as (strict & leak & P & HW & Hl). destruct (Hl Hn) as [-> ->].
  destruct (deleted_empty d ops Hd) as [Eg Et]. pose proof (w_st _ _ _ _ _ HW) as S. unfold wthings in S. rewrite Eg, Et in S. cbn in S.
  assert (E : living_things (lw_log (lrun d ops)) = []) by (apply Permutation_nil; symmetry; exact (st_living _ _ _ _ S)). split; [exact E|].
  intros k h K. rewrite (counts _ k h K (st_used _ _ _ _ S)). unfold count_living. rewrite E. cbn. apply PeanoNat.Nat.add_0_r.
Qed.
Print Assumptions C92_all_destroyed_partial.
Example C92_all_destroyed_applies : honest fresh_driver /\ waits_first life_ops /\ no_late_throw fresh_driver life_ops /\ all_deleted life_ops /\
  creations LSemaphore 9 (lw_log (lrun fresh_driver life_ops)) = 1%nat.
Proof. split; [exact fresh_honest|]. split; [exact life_waits|]. split; [exact (no_throw_late _ _ life_no_throw)|]. split; [exact life_deleted|vm_compute; reflexivity]. Qed.

(** C93: a construction that throws before its semaphore exists leaves nothing; one that throws later leaves exactly its semaphore. *)
Theorem C93_exactly_the_semaphore_partial : forall d before id g events, honest d -> waits_first before -> construction_throws d before id g events ->
  let log := lw_log (lrun d before) in
  (~ has_semaphore events /\ Permutation (living_things (log ++ events)) (living_things log)) \/
  (exists h, In (LCreated LSemaphore h 0 (gp_name g ++ "/Graph")) events /\
     Permutation (living_things (log ++ events)) ({| th_kind := LSemaphore; th_handle := h; th_parent := 0; th_name := gp_name g ++ "/Graph" |} :: living_things log)).
Proof.
  intros d before id g events Ho Hw [F C] log. destruct (run_W d before Ho Hw) as (strict & leak & P & HW & _).
  pose proof (new_lgraph_ok d g log strict _ P Ho (closed_world _ leak (w_leak _ _ _ _ _ HW)) (w_st _ _ _ _ _ HW)) as N. fold log in C. rewrite C in N.
  destruct N as (evs & E & N). apply app_inv_head in E. subst evs. pose proof (st_living _ _ _ _ (w_st _ _ _ _ _ HW)) as L0. fold log in L0.
  destruct N as [[Hs N]|(h & I & _ & N)]; [left|right; exists h]; (split; [assumption|]); rewrite (st_living _ _ _ _ N), L0; reflexivity.
Qed.
Print Assumptions C93_exactly_the_semaphore_partial.
(* Every creation may be the one that is refused; the first four leave nothing, the others leave the semaphore. *)
Example C93_applies : forall n, (n < 9)%nat -> exists events, construction_throws (refuses n) [] 1 (a_graph [a_pass 1 NoThrow; a_pass 1 NoThrow] false) events /\
  honest (refuses n) /\ List.length (living_things events) = if Nat.ltb n 4 then 0%nat else 1%nat.
Proof.
  intros n L. do 9 (destruct n as [|n]; [eexists; split; [split; [reflexivity|vm_compute; reflexivity]|split; [apply refuses_honest|vm_compute; reflexivity]]|]). lia.
Qed.
Theorem C93_leak_refuted : exists d g events, honest d /\ construction_throws d [] 1 g events /\ living_things events <> [].
Proof.
  exists fresh_driver, (a_graph [a_pass 1 NoThrow; a_pass 2 ThrowAfter] false). eexists. split; [exact fresh_honest|]. split; [split; [reflexivity|vm_compute; reflexivity]|]. vm_compute. discriminate.
Qed.
Print Assumptions C93_leak_refuted.
(* What a pass created is destroyed when its construction throws, whatever the other objects. *)
Theorem C93_pass_leaves_nothing : forall d before id pl log' g, honest d -> waits_first before -> mfind id (lw_graphs (lrun d before)) = Some g ->
  create_lpass d (lg_pool g) pl (lw_log (lrun d before)) = (log', None) -> Permutation (living_things log') (living_things (lw_log (lrun d before))) /\ well_used log'.
Proof.
  intros d before id pl log' g Ho Hw F C. destruct (run_W d before Ho Hw) as (strict & leak & P & HW & _). pose proof (w_st _ _ _ _ _ HW) as S.
  assert (Po : has_pool (wthings (lrun d before) leak) (lg_pool g)).
  { exists 0, (lg_name g). unfold wthings. apply in_or_app. left. unfold gthings. apply in_flat_map. exists (id, g). split; [exact (mfind_in' _ _ _ F)|apply pool_in]. }
  pose proof (create_lpass_ok d (lg_pool g) pl _ strict _ P Ho Po S) as N. rewrite C in N. split; [|exact (st_used _ _ _ _ N)]. now rewrite (st_living _ _ _ _ N), (st_living _ _ _ _ S).
Qed.
Print Assumptions C93_pass_leaves_nothing.
Example C93_pass_applies : exists g log', mfind 1 (lw_graphs (lrun (refuses 10) [ONew 1 (a_graph [] false)])) = Some g /\
  create_lpass (refuses 10) (lg_pool g) (a_pass 4 NoThrow) (lw_log (lrun (refuses 10) [ONew 1 (a_graph [] false)])) = (log', None) /\ List.length log' = 33%nat.
Proof. eexists. eexists. split; [vm_compute; reflexivity|]. split; vm_compute; reflexivity. Qed.

(** C94: the registry of the context. *)
(* Every living object is registered, with its type and its name, whatever happened. *)
Theorem C94_living_registered : forall d ops x, honest d -> waits_first ops -> In x (living_things (lw_log (lrun d ops))) ->
  mfind (th_handle x) (listed (lw_log (lrun d ops))) = Some (type_name (th_kind x), th_name x).
Proof.
  intros d ops x Ho Hw I. destruct (run_W d ops Ho Hw) as (strict & leak & P & HW & _). pose proof (w_st _ _ _ _ _ HW) as S.
  apply (st_listed _ _ _ _ S). now rewrite <- (st_living _ _ _ _ S).
Qed.
Print Assumptions C94_living_registered.
Example C94_living_registered_applies : exists x, In x (living_things (lw_log (lrun fresh_driver (firstn 5 life_ops)))) /\ th_name x = "group/pass"%string /\ th_kind x = LBuffer.
Proof. eexists. split; [vm_compute; do 17 right; left; reflexivity|]. split; reflexivity. Qed.
(* What is registered and does not live is a command buffer. *)
Theorem C94_only_buffers_stale : forall d ops h v, honest d -> waits_first ops -> mfind h (listed (lw_log (lrun d ops))) = Some v ->
  In h (map th_handle (living_things (lw_log (lrun d ops)))) \/ fst v = "VkCommandBuffer"%string.
Proof.
  intros d ops h v Ho Hw F. destruct (run_W d ops Ho Hw) as (strict & leak & P & HW & _). pose proof (w_st _ _ _ _ _ HW) as S.
  destruct (st_only _ _ _ _ S h v F) as [I|[_ I]]; [left|now right]. pose proof (Permutation_map th_handle (st_living _ _ _ _ S)) as PM. now rewrite PM.
Qed.
Print Assumptions C94_only_buffers_stale.
(* Exact when no construction throws once its semaphore exists; in particular the context reports no leak in the end. *)
Theorem C94_exact_partial : forall d ops, honest d -> waits_first ops -> no_late_throw d ops ->
  (forall h t n, mfind h (listed (lw_log (lrun d ops))) = Some (t, n) <->
     exists x, In x (living_things (lw_log (lrun d ops))) /\ th_handle x = h /\ type_name (th_kind x) = t /\ th_name x = n) /\
  (all_deleted ops -> leak_report (flat_map registration (lw_log (lrun d ops))) = []).
Proof.
  intros d ops Ho Hw Hn. assert (G : forall h t n, mfind h (listed (lw_log (lrun d ops))) = Some (t, n) <->
     exists x, In x (living_things (lw_log (lrun d ops))) /\ th_handle x = h /\ type_name (th_kind x) = t /\ th_name x = n).
  { intros h t n. destruct (run_W d ops Ho Hw) as (strict & leak & P & HW & Hl). destruct (Hl Hn) as [-> ->]. pose proof (w_st _ _ _ _ _ HW) as S. split.
    - intros F. destruct (st_only _ _ _ _ S h _ F) as [I|[I _]]; [|discriminate I]. apply in_map_iff in I as (x & <- & I). exists x.
      split; [now rewrite (st_living _ _ _ _ S)|]. split; [reflexivity|]. rewrite (st_listed _ _ _ _ S x I) in F. injection F as <- <-. auto.
    - intros (x & I & <- & <- & <-). apply (st_listed _ _ _ _ S). now rewrite <- (st_living _ _ _ _ S). }
  split; [exact G|]. intros Hd. destruct (C92_all_destroyed_partial d ops Ho Hw Hn Hd) as [E _]. unfold leak_report. fold (listed (lw_log (lrun d ops))).
  rewrite (all_none (listed (lw_log (lrun d ops)))); [reflexivity|]. intros id. destruct (mfind id (listed (lw_log (lrun d ops)))) as [[t n]|] eqn:F; [|reflexivity].
  apply G in F as (x & I & _). rewrite E in I. destruct I.
Qed.
Print Assumptions C94_exact_partial.
Example C94_exact_applies : leak_report (flat_map registration (lw_log (lrun fresh_driver life_ops))) = [] /\
  List.length (leak_report (flat_map registration (lw_log (lrun fresh_driver (firstn 5 life_ops))))) = 18%nat.
Proof. split; vm_compute; reflexivity. Qed.
(* After a construction that throws, a command buffer freed with its pool is still reported. *)
Theorem C94_stale_buffer_refuted : exists d ops, honest d /\ waits_first ops /\ all_deleted ops /\
  living_things (lw_log (lrun d ops)) = [{| th_kind := LSemaphore; th_handle := 4; th_parent := 0; th_name := "graph/Graph" |}] /\
  leak_report (flat_map registration (lw_log (lrun d ops))) = [("VkSemaphore", "graph/Graph"); ("VkCommandBuffer", "graph/Graph")]%string.
Proof.
  exists fresh_driver, [ONew 1 (a_graph [a_pass 1 ThrowBefore] false); ODelete 1]. split; [exact fresh_honest|]. split; [|split; [|split; vm_compute; reflexivity]].
  - intros before id after E. destruct before as [|o before]; [discriminate E|]. injection E as <- E. destruct before as [|o before]; [injection E as <- _; reflexivity|]. injection E as <- E. destruct before; discriminate E.
  - intros graphs id. cbn. destruct graphs; cbn; [|reflexivity]. destruct id as [|[?|?|]]; reflexivity.
Qed.
Print Assumptions C94_stale_buffer_refuted.
