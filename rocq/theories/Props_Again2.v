(* C113, second part: what a pass records again is not executed by the runs. *)
From Verif Require Import Spec_Life Proof_Layout Proof_Run3 Proof_Life Proof_Life2 Proof_Life3 Proof_Life4 Props_Life.
From Coq Require Import List.
Import ListNotations.
Local Open Scope N_scope.

Lemma wait_submits f log : exists l, snd (lfence_wait f log) = log ++ l /\ forall b s x, ~ In (LSubmitted b s x) l.
Proof.
  unfold lfence_wait. cbn [snd]. destruct (N.eqb (lf_handle f) 0); [exists []; rewrite app_nil_r; split; [reflexivity|intros b s x []]|].
  eexists. split; [reflexivity|]. intros b s x [H|[]]. discriminate.
Qed.
Lemma reset_submits f log : exists l, snd (lfence_reset f log) = log ++ l /\ forall b s x, ~ In (LSubmitted b s x) l.
Proof.
  unfold lfence_reset. destruct (N.eqb (lf_handle f) 0); [exists []; rewrite app_nil_r; split; [reflexivity|intros b s x []]|].
  destruct (lf_waited f); [eexists; split; [reflexivity|]; intros b s x [H|[]]; discriminate|].
  destruct (wait_submits f log) as (l & E & H). destruct (lfence_wait f log) as [f2 log2]. cbn [snd] in *. subst log2. exists (l ++ [LResetFence (lf_handle f2)]).
  split; [rewrite app_assoc; reflexivity|]. intros b s x I. apply in_app_or in I as [I|[I|[]]]; [exact (H b s x I)|discriminate].
Qed.
Lemma run_submits t g log : exists l, snd (run_lgraph t g log) = log ++ l /\ forall b s x, In (LSubmitted b s x) l -> b = lg_buffer g.
Proof.
  assert (R : exists g1 l1, record_lgraph t g log = (g1, log ++ l1) /\ lg_buffer g1 = lg_buffer g /\ forall b s x, ~ In (LSubmitted b s x) l1).
  { unfold record_lgraph. destruct (lg_passes g) as [|p0 r0]; [exists g, []; rewrite app_nil_r; repeat split; intros b s x []|].
    destruct (wait_submits (lg_fence g) log) as (l & E & H). destruct (lfence_wait (lg_fence g) log) as [f2 log2]. cbn [snd] in E. subst log2.
    eexists _, (l ++ _). rewrite <- app_assoc. split; [reflexivity|]. split; [reflexivity|]. intros b s x I. apply in_app_or in I as [I|I]; [exact (H b s x I)|].
    destruct I as [I|[I|I]]; try discriminate. destruct t; [destruct I|destruct I as [I|[]]; discriminate]. }
  destruct R as (g1 & l & E & B & H). unfold run_lgraph. rewrite E.
  assert (S : exists l2, snd (let '(f, log0) := lfence_reset (lg_fence g1) (log ++ l) in (with_lfence g1 f, log0 ++ [LSubmitted (lg_buffer g1) (lg_semaphore g1) (lf_handle f)])) = log ++ l2 /\
              forall b s x, In (LSubmitted b s x) l2 -> b = lg_buffer g).
  { destruct (reset_submits (lg_fence g1) (log ++ l)) as (l2 & E2 & H2). destruct (lfence_reset (lg_fence g1) (log ++ l)) as [f2 log2]. cbn [snd] in *. subst log2.
    eexists (l ++ l2 ++ [_]). rewrite <- !app_assoc. split; [reflexivity|]. intros b s x I. apply in_app_or in I as [I|I]; [destruct (H b s x I)|]. apply in_app_or in I as [I|[I|[]]]; [destruct (H2 b s x I)|].
    injection I as <- _ _. exact B. }
  destruct (lg_passes g1) as [|p0 r0]; [exact S|]. destruct t; [|exact S]. exists l. split; [reflexivity|]. intros b s x I. destruct (H b s x I).
Qed.
Lemma pass_buffer_in g p x : In p (lg_passes g) -> In x (lp_datas p) -> pd_buffer x <> 0 -> In (pd_buffer x) (map th_handle (flat_map (things_pass (lg_pool g)) (lg_passes g))).
Proof.
  intros Hp Hx Hz. change (pd_buffer x) with (th_handle {| th_kind := LBuffer; th_handle := pd_buffer x; th_parent := lg_pool g; th_name := lp_name p |}). apply in_map.
  apply in_flat_map. exists p. split; [exact Hp|]. unfold things_pass. apply in_flat_map. exists x. split; [exact Hx|].
  unfold things_pd, opt. apply in_or_app. right. apply in_or_app. left. apply N.eqb_neq in Hz. rewrite Hz. left. reflexivity.
Qed.

(* What a run submits is never the command buffer of a pass, of any living graph: what is recorded there is not executed by the runs. *)
Theorem C113_not_executed : forall d ops id t, honest d -> waits_first ops ->
  exists events, lw_log (lrun d (ops ++ [ORunGraph id t])) = lw_log (lrun d ops) ++ events /\
  forall b s f, In (LSubmitted b s f) events ->
    forall id' g p x, mfind id' (lw_graphs (lrun d ops)) = Some g -> In p (lg_passes g) -> In x (lp_datas p) -> b <> pd_buffer x.
Proof.
  intros d ops id t Ho Hw. unfold lrun. rewrite fold_left_app. cbn [fold_left lstep]. fold (lrun d ops). unfold on_lgraph.
  destruct (mfind id (lw_graphs (lrun d ops))) as [g0|] eqn:F0; [|exists []; rewrite app_nil_r; split; [reflexivity|intros b s f []]].
  destruct (run_submits t g0 (lw_log (lrun d ops))) as (l & E & H). destruct (run_lgraph t g0 (lw_log (lrun d ops))) as [g1 log1]. cbn [snd lw_log] in *. exists l. split; [exact E|].
  intros b s f I id' g p x Fg Hp Hx Eb. apply H in I. rewrite Eb in I. symmetry in I. clear Eb. destruct (run_W d ops Ho Hw) as (strict & leak & P & HW & _). pose proof (w_st _ _ _ _ _ HW) as S.
  assert (I0 : In (graph_buffer g0) (wthings (lrun d ops) leak)).
  { unfold wthings. apply in_or_app. left. unfold gthings. apply in_flat_map. exists (id, g0). split; [exact (mfind_in' _ _ _ F0)|right; left; reflexivity]. }
  assert (Nz : pd_buffer x <> 0) by (rewrite <- I; exact (st_nonzero _ _ _ _ S _ I0)).
  pose proof (w_graphs _ _ _ _ _ HW) as Ks. pose proof (pass_buffer_in g p x Hp Hx Nz) as Ip. rewrite <- I in Ip.
  pose proof (st_nodup _ _ _ _ (focus _ _ _ leak P id g0 Ks F0 S)) as Nd.
  destruct (N.eq_dec id' id) as [->|Ne].
  - rewrite F0 in Fg. injection Fg as <-.
    unfold things_graph in Nd. cbn [app map] in Nd. apply NoDup_cons_iff in Nd as [_ Nd]. apply NoDup_cons_iff in Nd as [Nd _]. apply Nd.
    rewrite map_app. apply in_or_app. left. unfold things_members. rewrite map_app. apply in_or_app. right. rewrite map_app. apply in_or_app. left. exact Ip.
  - apply in_map_iff in Ip as (y & Ey & Iy).
    assert (Iy2 : In y (things_graph g)). { right. right. unfold things_members. apply in_or_app. right. apply in_or_app. left. exact Iy. }
    apply (nodup_apart _ _ (graph_buffer g0) y Nd); [right; left; reflexivity|exact (things_in_rest _ _ _ _ _ _ Ne Fg Iy2)|symmetry; exact Ey].
Qed.
Print Assumptions C113_not_executed.
Example C113_not_executed_applies : honest fresh_driver /\ waits_first life_ops /\
  exists g p x, mfind 1 (lw_graphs (lrun fresh_driver (firstn 10 life_ops))) = Some g /\ nth_error (lg_passes g) 0 = Some p /\ nth_error (lp_datas p) 1 = Some x /\
    pd_buffer x <> 0 /\ In (LBegun (pd_buffer x)) (lw_log (lrun fresh_driver (firstn 10 life_ops))) /\ nth_error life_ops 10 = Some (ORunGraph 1 false).
Proof. split; [exact fresh_honest|]. split; [exact life_waits|]. eexists _, _, _. split; [vm_compute; reflexivity|]. split; [vm_compute; reflexivity|]. split; [vm_compute; reflexivity|]. vm_compute. split; [discriminate|]. split; [tauto|reflexivity]. Qed.
