(* The life of graphs and timers over whole histories. *)
From Verif Require Import Spec_Life Proof_Layout Proof_Run3 Proof_Life Proof_Life2.
From Coq Require Import List Permutation.
Import ListNotations.
Local Open Scope N_scope.

(* ---- maps as lists of entries ---- *)
Lemma tail_absent {V} k (v : V) r : keys_sorted ((k, v) :: r) -> mfind k r = None.
Proof.
  intro H. destruct (mfind k r) as [w|] eqn:E; [|reflexivity]. exfalso. apply mfind_in' in E.
  unfold keys_sorted in H. cbn in H. inversion H as [|? ? Hs Hf]; subst. rewrite Forall_forall in Hf.
  specialize (Hf k (in_map fst _ _ E)). cbn in Hf. exact (N.lt_irrefl _ Hf).
Qed.
Lemma tail_sorted {V} e (r : nmap V) : keys_sorted (e :: r) -> keys_sorted r.
Proof. unfold keys_sorted. cbn. intro H. inversion H; assumption. Qed.
Lemma erase_absent {V} k (m : nmap V) : mfind k m = None -> merase k m = m.
Proof.
  induction m as [|[k' v] r IH]; [reflexivity|]. cbn. destruct (N.eqb_spec k k') as [E|E]; [discriminate|]. intro H.
  destruct (N.eqb_spec k' k); [congruence|]. cbn. f_equal. apply IH, H.
Qed.
Lemma find_perm {V} id (g : V) m : keys_sorted m -> mfind id m = Some g -> Permutation m ((id, g) :: merase id m).
Proof.
  induction m as [|[k v] r IH]; intros S F; [discriminate|]. cbn in F |- *. destruct (N.eqb_spec id k) as [E|E].
  - injection F as ->. subst k. rewrite N.eqb_refl. cbn. fold (merase id r). rewrite erase_absent by exact (tail_absent _ _ _ S). reflexivity.
  - destruct (N.eqb_spec k id); [congruence|]. cbn. rewrite (IH (tail_sorted _ _ S) F) at 1. apply perm_swap.
Qed.
Lemma put_perm {V} id (g : V) m : keys_sorted m -> Permutation (mput id g m) ((id, g) :: merase id m).
Proof.
  intros S. assert (F : mfind id (mput id g m) = Some g) by apply mfind_mput_same. rewrite (find_perm _ _ _ (mput_sorted _ _ _ S) F). apply perm_skip.
  clear F. induction m as [|[k v] r IH]; cbn; [now rewrite N.eqb_refl|]. destruct (N.eqb_spec id k) as [E|E]; [subst k; cbn; now rewrite N.eqb_refl|].
  destruct (N.ltb id k).
  - cbn. rewrite N.eqb_refl. reflexivity.
  - cbn. destruct (N.eqb_spec k id); [congruence|]. cbn. apply perm_skip. exact (IH (tail_sorted _ _ S)).
Qed.

(* ---- the world ---- *)
Definition gthings (m : nmap lgraph) : list thing := flat_map (fun e => things_graph (snd e)) m.
Definition tthings (m : nmap (N * string)) : list thing := map (fun e => mkt LQueryPool (fst (snd e)) 0 (snd (snd e))) m.
Definition rest (id : N) (w : lworld) (leak : list thing) : list thing := gthings (merase id (lw_graphs w)) ++ tthings (lw_timers w) ++ leak.
Definition wthings (w : lworld) (leak : list thing) : list thing := gthings (lw_graphs w) ++ tthings (lw_timers w) ++ leak.
Definition pend (m : nmap lgraph) (ops : list lop) (P : list (N * N * N)) : Prop := forall b s f, In (b, s, f) P ->
  exists id g, mfind id m = Some g /\ b = lg_buffer g /\ s = lg_semaphore g /\ f = lf_handle (lg_fence g) /\ lf_waited (lg_fence g) = false /\ flying id ops = true.
Record W (strict : bool) (w : lworld) (leak : list thing) (P : list (N * N * N)) (ops : list lop) : Prop := {
  w_st : St strict (lw_log w) (wthings w leak) P;
  w_graphs : keys_sorted (lw_graphs w);
  w_timers : keys_sorted (lw_timers w);
  w_leak : forall x, In x leak -> th_kind x = LSemaphore;
  w_pend : pend (lw_graphs w) ops P }.

Lemma gthings_find id g m : keys_sorted m -> mfind id m = Some g -> Permutation (gthings m) (things_graph g ++ gthings (merase id m)).
Proof. intros S F. unfold gthings. rewrite (Permutation_flat_map (fun e => things_graph (snd e)) (find_perm _ _ _ S F)). reflexivity. Qed.
Lemma gthings_put id g m : keys_sorted m -> Permutation (gthings (mput id g m)) (things_graph g ++ gthings (merase id m)).
Proof. intros S. unfold gthings. rewrite (Permutation_flat_map (fun e => things_graph (snd e)) (put_perm id g m S)). reflexivity. Qed.
Lemma focus strict log w leak P id g : keys_sorted (lw_graphs w) -> mfind id (lw_graphs w) = Some g ->
  St strict log (wthings w leak) P -> St strict log (things_graph g ++ rest id w leak) P.
Proof. intros S F. apply St_perm. unfold wthings, rest. rewrite (gthings_find id g _ S F), <- app_assoc. reflexivity. Qed.

Lemma things_in_rest id id' g w leak x : id' <> id -> mfind id' (lw_graphs w) = Some g -> In x (things_graph g) -> In x (rest id w leak).
Proof.
  intros N F I. unfold rest. apply in_or_app. left. unfold gthings. apply in_flat_map. exists (id', g). split; [|exact I].
  apply filter_In. split; [exact (mfind_in' _ _ _ F)|]. cbn. destruct (N.eqb_spec id' id); [contradiction|reflexivity].
Qed.
Lemma nodup_apart (A B : list thing) x y : NoDup (map th_handle (A ++ B)) -> In x A -> In y B -> th_handle x <> th_handle y.
Proof.
  induction A as [|z A IH]; cbn; intros N X Y; [contradiction|]. apply NoDup_cons_iff in N as [N1 N2]. destruct X as [->|X]; [|exact (IH N2 X Y)].
  intros E. apply N1. rewrite E. apply in_map. apply in_or_app. now right.
Qed.

(* Submissions of the other graphs only. *)
Definition away (id : N) (m : nmap lgraph) (P : list (N * N * N)) : Prop := forall b s f, In (b, s, f) P ->
  exists id' g, id' <> id /\ mfind id' m = Some g /\ b = lg_buffer g /\ s = lg_semaphore g /\ f = lf_handle (lg_fence g).
Lemma buffer_in g : In (graph_buffer g) (things_graph g). Proof. right. now left. Qed.
Lemma semaphore_in g : In (graph_semaphore g) (things_graph g). Proof. now left. Qed.
Definition graph_fence (g : lgraph) : thing := mkt LFence (lf_handle (lg_fence g)) 0 (lg_name g ++ "/Graph").
Lemma fence_in g : In (graph_fence g) (things_graph g). Proof. right. right. now left. Qed.
Lemma away_unused id w leak Q A : NoDup (map th_handle (A ++ rest id w leak)) -> away id (lw_graphs w) Q -> all_unused Q A.
Proof.
  intros N Aw x I b s f H. destruct (Aw b s f H) as (id' & g' & Ne & F & -> & -> & ->).
  pose proof (fun y Iy => nodup_apart A (rest id w leak) x y N I (things_in_rest id id' g' w leak y Ne F Iy)) as D.
  pose proof (D _ (buffer_in g')) as D1. pose proof (D _ (semaphore_in g')) as D2. pose proof (D _ (fence_in g')) as D3. cbn in D1, D2, D3.
  repeat split; congruence.
Qed.
Lemma pend_away id g m ops P : mfind id m = Some g -> pend m ops P -> (flying id ops = false \/ lf_waited (lg_fence g) = true) -> away id m P.
Proof.
  intros F Pe Fl b s f H. destruct (Pe b s f H) as (id' & g' & F' & -> & -> & -> & Wt & Fy). exists id', g'. split; [|auto].
  intros ->. assert (g' = g) by congruence. subst g'. destruct Fl; congruence.
Qed.
(* Waiting for the fence of a graph leaves the submissions of the others. *)
Lemma wait_away id g m ops P : mfind id m = Some g -> pend m ops P -> away id m (filter (fun x => negb (N.eqb (snd x) (lf_handle (lg_fence g)))) P).
Proof.
  intros F Pe b s f H. apply filter_In in H as [H Nf]. destruct (Pe b s f H) as (id' & g' & F' & -> & -> & -> & Wt & Fy). exists id', g'. split; [|auto].
  intros ->. assert (g' = g) by congruence. subst g'. cbn in Nf. now rewrite N.eqb_refl in Nf.
Qed.

Lemma flying_snoc id ops o : flying id (ops ++ [o]) = flying_step id (flying id ops) o.
Proof. unfold flying. now rewrite fold_left_app. Qed.

(* A step on one graph, after which its submissions, if any, are those of the graph as it is now. *)
Definition pend_but (id : N) (m : nmap lgraph) (ops : list lop) (P : list (N * N * N)) : Prop := forall b s f, In (b, s, f) P ->
  exists id' g, id' <> id /\ mfind id' m = Some g /\ b = lg_buffer g /\ s = lg_semaphore g /\ f = lf_handle (lg_fence g) /\ lf_waited (lg_fence g) = false /\ flying id' ops = true.
Definition own_entry (id : N) (g : lgraph) (ops : list lop) (x : N * N * N) : Prop :=
  x = (lg_buffer g, lg_semaphore g, lf_handle (lg_fence g)) /\ lf_waited (lg_fence g) = false /\ flying id ops = true.
Lemma update_graph strict w leak P ops o id g g' log' P' :
  W strict w leak P ops -> mfind id (lw_graphs w) = Some g ->
  (forall i, i <> id -> flying i (ops ++ [o]) = flying i ops) ->
  St strict log' (things_graph g' ++ rest id w leak) P' ->
  (forall x, In x P' -> (In x P /\ away id (lw_graphs w) [x]) \/ own_entry id g' (ops ++ [o]) x) ->
  W strict {| lw_log := log'; lw_graphs := mput id g' (lw_graphs w); lw_timers := lw_timers w |} leak P' (ops ++ [o]).
Proof.
  intros [S Kg Kt Lk Pe] F Fl S' In'. split; cbn; auto.
  - eapply St_perm; [|exact S']. unfold wthings, rest. cbn [lw_graphs lw_timers]. rewrite (gthings_put id g' _ Kg). rewrite <- !app_assoc. apply Permutation_refl.
  - now apply mput_sorted.
  - intros b s f H. destruct (In' _ H) as [[H1 Aw]|(E & Wt & Fy)].
    + destruct (Aw b s f (or_introl eq_refl)) as (j & gj & Nj & Fj & Eb & Es & Ef).
      destruct (Pe b s f H1) as (id' & g1 & F' & E1 & E2 & E3 & Wt & Fy).
      assert (N' : id' <> id \/ id' = id) by (destruct (N.eq_dec id' id); auto). destruct N' as [N'|N'].
      * exists id', g1. split; [rewrite mfind_mput_other by exact N'; exact F'|]. repeat (split; [assumption|]). rewrite Fl by exact N'. exact Fy.
      * exfalso. subst id'. assert (g1 = g) by congruence. subst g1.
        pose proof (focus _ _ _ _ _ _ _ Kg F S) as S0. pose proof (st_nodup _ _ _ _ S0) as Nd.
        apply (nodup_apart _ _ _ _ Nd (buffer_in g) (things_in_rest id j gj w leak _ Nj Fj (buffer_in gj))). cbn. congruence.
    + injection E as -> -> ->. exists id, g'. rewrite mfind_mput_same. auto 10.
Qed.
Lemma away_in id m P x : away id m P -> In x P -> away id m [x].
Proof. intros A I b s f [E|[]]. apply A. now rewrite <- E. Qed.

(* ---- elementary events on a graph ---- *)
Lemma st_buffer_event strict log L P b p n e : (e = LResetBuffer b \/ e = LBegun b \/ e = LEnded b) -> St strict log L P -> In (mkt LBuffer b p n) L -> unused P b ->
  St strict (log ++ [e]) L P.
Proof.
  intros E S I U. assert (Q : lives log LBuffer b /\ ~ in_use log LBuffer b).
  { split; [exact (lives_in _ _ _ _ _ _ _ _ S I)|apply (unused_not _ _ _ _ _ _ S U); discriminate]. }
  apply St_neutral; [destruct E as [->|[->| ->]]; exact Logic.I|destruct E as [->|[->| ->]]; exact Q|exact S].
Qed.
Lemma things_with_lfence g f : lf_handle f = lf_handle (lg_fence g) -> things_graph (with_lfence g f) = things_graph g.
Proof. intros E. unfold things_graph, things_members, graph_semaphore, graph_buffer, with_lfence. cbn. now rewrite E. Qed.
Lemma fence_nonzero strict log g R P : St strict log (things_graph g ++ R) P -> lf_handle (lg_fence g) <> 0.
Proof. intros S. apply (st_nonzero _ _ _ _ S (graph_fence g)). apply in_or_app. left. apply fence_in. Qed.
Lemma graph_waits strict log g R P : St strict log (things_graph g ++ R) P ->
  St strict (snd (lfence_wait (lg_fence g) log)) (things_graph g ++ R) (filter (fun x => negb (N.eqb (snd x) (lf_handle (lg_fence g)))) P).
Proof.
  intros S. unfold lfence_wait. cbn [snd]. rewrite (proj2 (N.eqb_neq _ _) (fence_nonzero _ _ _ _ _ S)).
  apply (St_waited strict log _ 0 (lg_name g ++ "/Graph")); [exact S|]. apply in_or_app. left. apply fence_in.
Qed.
Lemma pend_entry id g m ops P x : mfind id m = Some g -> pend m ops P -> In x P -> (In x P /\ away id m [x]) \/ own_entry id g ops x.
Proof.
  intros F Pe I. destruct x as [[b s] f]. destruct (Pe b s f I) as (id' & g' & F' & -> & -> & -> & Wt & Fy).
  destruct (N.eq_dec id' id) as [->|Ne]; [right|left].
  - assert (g' = g) by congruence. subst g'. split; auto.
  - split; [exact I|]. intros b s f [E|[]]. injection E as <- <- <-. exists id', g'. auto.
Qed.

Section OneGraph.
  Variables (strict : bool) (w : lworld) (leak : list thing) (P : list (N * N * N)) (ops : list lop) (id : N) (g : lgraph).
  Hypothesis Hw : W strict w leak P ops.
  Hypothesis Hf : mfind id (lw_graphs w) = Some g.
  Let R := rest id w leak.
  Let S0 : St strict (lw_log w) (things_graph g ++ R) P := focus _ _ _ _ _ _ _ (w_graphs _ _ _ _ _ Hw) Hf (w_st _ _ _ _ _ Hw).
  Let Nd : NoDup (map th_handle (things_graph g ++ R)) := st_nodup _ _ _ _ S0.
  Let Pw := filter (fun x => negb (N.eqb (snd x) (lf_handle (lg_fence g)))) P.
  Let Aw : away id (lw_graphs w) Pw := wait_away _ _ _ _ _ Hf (w_pend _ _ _ _ _ Hw).

  Lemma waited_entries x : In x Pw -> In x P /\ away id (lw_graphs w) [x].
  Proof. intros I. split; [apply filter_In in I; tauto|exact (away_in _ _ _ _ Aw I)]. Qed.
  Lemma step_wait o : (forall i, i <> id -> flying i (ops ++ [o]) = flying i ops) ->
    exists P', W strict (on_lgraph (fun g log => let '(f, log) := lfence_wait (lg_fence g) log in (with_lfence g f, log)) id w) leak P' (ops ++ [o]).
  Proof.
    intros Fl. unfold on_lgraph. rewrite Hf. cbn [lfence_wait]. exists Pw. eapply update_graph with (o := o); eauto.
    - rewrite things_with_lfence by reflexivity. exact (graph_waits _ _ _ _ _ S0).
    - intros x I. left. exact (waited_entries x I).
  Qed.

  (* recording: the buffer is begun again once its last execution is over *)
  Lemma recorded t : lg_passes g <> [] -> exists log',
    record_lgraph t g (lw_log w) = (with_lfence g {| lf_handle := lf_handle (lg_fence g); lf_waited := true |}, log') /\ St strict log' (things_graph g ++ R) Pw.
  Proof.
    intros Np. unfold record_lgraph. destruct (lg_passes g) as [|p0 r0] eqn:Ep; [contradiction|]. clear Np.
    pose proof (graph_waits _ _ _ _ _ S0) as S1. cbn [lfence_wait snd] in S1 |- *. fold Pw in S1.
    pose proof (away_unused id w leak Pw (things_graph g) Nd Aw) as U. pose proof (U _ (buffer_in g)) as Ub. cbn in Ub.
    assert (Ib : In (graph_buffer g) (things_graph g ++ R)) by (apply in_or_app; left; apply buffer_in).
    eexists. split; [reflexivity|]. revert S1. generalize (if N.eqb (lf_handle (lg_fence g)) 0 then lw_log w else lw_log w ++ [LWaited (lf_handle (lg_fence g))]) as log1. intros log1 S1.
    change ([LResetBuffer (lg_buffer g); LBegun (lg_buffer g)] ++ (if t then [] else [LEnded (lg_buffer g)])) with ([LResetBuffer (lg_buffer g)] ++ [LBegun (lg_buffer g)] ++ (if t then [] else [LEnded (lg_buffer g)])).
    rewrite !app_assoc. pose proof (st_buffer_event _ _ _ _ _ _ _ (LResetBuffer (lg_buffer g)) (or_introl eq_refl) S1 Ib Ub) as S2.
    pose proof (st_buffer_event _ _ _ _ _ _ _ (LBegun (lg_buffer g)) (or_intror (or_introl eq_refl)) S2 Ib Ub) as S3.
    destruct t; [rewrite app_nil_r; exact S3|]. exact (st_buffer_event _ _ _ _ _ _ _ (LEnded (lg_buffer g)) (or_intror (or_intror eq_refl)) S3 Ib Ub).
  Qed.
  Lemma step_record t : exists P', W strict (on_lgraph (record_lgraph t) id w) leak P' (ops ++ [ORecordGraph id t]).
  Proof.
    assert (Fl : forall i, flying i (ops ++ [ORecordGraph id t]) = flying i ops) by (intros i; now rewrite flying_snoc).
    unfold on_lgraph. rewrite Hf. destruct (lg_passes g) as [|p0 r0] eqn:Ep.
    - unfold record_lgraph. rewrite Ep. exists P. eapply update_graph with (o := ORecordGraph id t); eauto.
      intros x I. destruct (pend_entry _ _ _ _ _ _ Hf (w_pend _ _ _ _ _ Hw) I) as [E|(E1 & E2 & E3)]; [now left|right]. split; [exact E1|]. split; [exact E2|]. now rewrite Fl.
    - destruct (recorded t) as (log' & E & S1); [congruence|]. rewrite E. exists Pw. eapply update_graph with (o := ORecordGraph id t); eauto.
      intros x I. left. exact (waited_entries x I).
  Qed.

  (* the fence is reset, then the buffer is submitted *)
  Lemma submitted log1 waited Q : (waited = true -> away id (lw_graphs w) Q) -> incl Q P -> St strict log1 (things_graph g ++ R) Q ->
    exists f2 log2 Q', lfence_reset {| lf_handle := lf_handle (lg_fence g); lf_waited := waited |} log1 = (f2, log2) /\
      lf_handle f2 = lf_handle (lg_fence g) /\ lf_waited f2 = false /\
      St strict (log2 ++ [LSubmitted (lg_buffer g) (lg_semaphore g) (lf_handle f2)]) (things_graph g ++ R) (Q' ++ [(lg_buffer g, lg_semaphore g, lf_handle f2)]) /\
      incl Q' P /\ away id (lw_graphs w) Q'.
  Proof.
    intros Wt Sub S1. unfold lfence_reset. cbn [lf_handle lf_waited]. rewrite (proj2 (N.eqb_neq _ _) (fence_nonzero _ _ _ _ _ S0)).
    assert (G : forall log Q', incl Q' P -> away id (lw_graphs w) Q' -> St strict log (things_graph g ++ R) Q' ->
      St strict ((log ++ [LResetFence (lf_handle (lg_fence g))]) ++ [LSubmitted (lg_buffer g) (lg_semaphore g) (lf_handle (lg_fence g))]) (things_graph g ++ R) (Q' ++ [(lg_buffer g, lg_semaphore g, lf_handle (lg_fence g))])).
    { intros log Q' I' A' S'. pose proof (away_unused id w leak Q' (things_graph g) Nd A') as U.
      pose proof (fun x Ix => in_or_app (things_graph g) R x (or_introl Ix)) as In'.
      assert (Lf : lives log LFence (lf_handle (lg_fence g))) by exact (lives_in _ _ _ _ _ _ _ _ S' (In' _ (fence_in g))).
      assert (S2 : St strict (log ++ [LResetFence (lf_handle (lg_fence g))]) (things_graph g ++ R) Q').
      { apply St_neutral; [exact Logic.I| |exact S']. split; [exact Lf|]. apply (unused_not _ _ _ _ _ _ S' (U _ (fence_in g))). discriminate. }
      apply St_submitted; [exact S2|exact (lives_in _ _ _ _ _ _ _ _ S2 (In' _ (buffer_in g)))|exact (lives_in _ _ _ _ _ _ _ _ S2 (In' _ (semaphore_in g)))|exact (lives_in _ _ _ _ _ _ _ _ S2 (In' _ (fence_in g)))|exact (U _ (buffer_in g))|exact (U _ (fence_in g))]. }
    destruct waited.
    - exists {| lf_handle := lf_handle (lg_fence g); lf_waited := false |}, (log1 ++ [LResetFence (lf_handle (lg_fence g))]), Q. cbn. repeat (split; [auto; fail|]). auto.
    - cbn [lfence_wait lf_handle]. rewrite (proj2 (N.eqb_neq _ _) (fence_nonzero _ _ _ _ _ S0)).
      assert (Aq : away id (lw_graphs w) (filter (fun x => negb (N.eqb (snd x) (lf_handle (lg_fence g)))) Q)).
      { intros b s f I. apply filter_In in I as [I1 I2]. apply (Aw b s f). apply filter_In. split; [apply Sub; exact I1|exact I2]. }
      assert (Iq : incl (filter (fun x => negb (N.eqb (snd x) (lf_handle (lg_fence g)))) Q) P). { intros x I. apply filter_In in I. now apply Sub. }
      eexists _, _, (filter (fun x => negb (N.eqb (snd x) (lf_handle (lg_fence g)))) Q). split; [reflexivity|]. cbn [lf_handle lf_waited]. repeat (split; [reflexivity|]). split; [|auto].
      apply G; auto. apply (St_waited strict log1 _ 0 (lg_name g ++ "/Graph")); [exact S1|]. apply in_or_app. left. apply fence_in.
  Qed.
  Lemma step_run t : exists P', W strict (on_lgraph (run_lgraph t) id w) leak P' (ops ++ [ORunGraph id t]).
  Proof.
    assert (Fl : forall i, i <> id -> flying i (ops ++ [ORunGraph id t]) = flying i ops).
    { intros i Ni. rewrite flying_snoc. cbn. destruct (N.eqb_spec id i); [congruence|reflexivity]. }
    assert (Fi : flying id (ops ++ [ORunGraph id t]) = true) by (rewrite flying_snoc; cbn; now rewrite N.eqb_refl).
    assert (Fin : forall f2 log2 Q', lf_handle f2 = lf_handle (lg_fence g) -> lf_waited f2 = false ->
      St strict (log2 ++ [LSubmitted (lg_buffer g) (lg_semaphore g) (lf_handle f2)]) (things_graph g ++ R) (Q' ++ [(lg_buffer g, lg_semaphore g, lf_handle f2)]) -> incl Q' P -> away id (lw_graphs w) Q' ->
      W strict {| lw_log := log2 ++ [LSubmitted (lg_buffer g) (lg_semaphore g) (lf_handle f2)]; lw_graphs := mput id (with_lfence g f2) (lw_graphs w); lw_timers := lw_timers w |} leak (Q' ++ [(lg_buffer g, lg_semaphore g, lf_handle f2)]) (ops ++ [ORunGraph id t])).
    { intros f2 log2 Q' E1 E2 S2 I2 A2. eapply update_graph with (o := ORunGraph id t); eauto; [rewrite things_with_lfence by exact E1; exact S2|].
      intros x I. apply in_app_or in I as [I|[<-|[]]]; [left; split; [now apply I2|exact (away_in _ _ _ _ A2 I)]|right]. split; [reflexivity|]. split; [exact E2|exact Fi]. }
    unfold on_lgraph, run_lgraph. rewrite Hf. destruct (lg_passes g) as [|p0 r0] eqn:Ep.
    - unfold record_lgraph. rewrite Ep. destruct (submitted (lw_log w) (lf_waited (lg_fence g)) P) as (f2 & log2 & Q' & E & E1 & E2 & S2 & I2 & A2).
      + intros Wt. apply (pend_away _ g _ ops); auto. exact (w_pend _ _ _ _ _ Hw).
      + intros x I. exact I.
      + exact S0.
      + assert (Ef : forall f : lfence, {| lf_handle := lf_handle f; lf_waited := lf_waited f |} = f) by (intros []; reflexivity). rewrite Ef in E.
        rewrite Ep, E. eexists. exact (Fin f2 log2 Q' E1 E2 S2 I2 A2).
    - destruct (recorded t) as (log' & E & S1); [congruence|]. rewrite E. cbn [lg_passes with_lfence lg_fence]. rewrite Ep. destruct t.
      + exists Pw. eapply update_graph with (o := ORunGraph id true); eauto. intros x I. left. exact (waited_entries x I).
      + destruct (submitted log' true Pw) as (f2 & log2 & Q' & E' & E1 & E2 & S2 & I2 & A2); [intros _; exact Aw|intros x I; apply filter_In in I; tauto|exact S1|].
        rewrite E'. cbn [lg_buffer lg_semaphore with_lfence]. eexists. exact (Fin f2 log2 Q' E1 E2 S2 I2 A2).
  Qed.
End OneGraph.
