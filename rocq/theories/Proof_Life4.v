(* The command buffers of the passes, and whole histories. *)
From Verif Require Import Spec_Life Proof_Layout Proof_Run3 Proof_Life Proof_Life2 Proof_Life3.
From Coq Require Import List Permutation PeanoNat.
Import ListNotations.
Local Open Scope N_scope.

Lemma set_at_split {A} i (x : A) l : nth_error l i = Some x -> exists l1 l2, l = l1 ++ x :: l2 /\ forall y, set_at i y l = l1 ++ y :: l2.
Proof.
  intros H. exists (firstn i l), (skipn (S i) l). split.
  - revert l H. induction i as [|i IH]; intros [|z l] H; try discriminate; cbn; [now injection H as ->|]. f_equal. apply IH. exact H.
  - intros y. unfold set_at. f_equal. revert l H. induction i as [|i IH]; intros [|z l] H; try discriminate; cbn; [reflexivity|]. apply IH. exact H.
Qed.
Lemma data_split g i index p x : nth_error (lg_passes g) i = Some p -> nth_error (lp_datas p) index = Some x ->
  exists O, Permutation (things_graph g) (things_pd (lg_pool g) (lp_name p) x ++ O) /\ has_pool O (lg_pool g) /\
    In (graph_semaphore g) O /\ In (graph_buffer g) O /\ In (graph_fence g) O /\
    forall x', Permutation (things_graph (with_lpasses g (set_at i {| lp_name := lp_name p; lp_datas := set_at index x' (lp_datas p) |} (lg_passes g)))) (things_pd (lg_pool g) (lp_name p) x' ++ O).
Proof.
  intros Hp Hx. set (pool := lg_pool g). 
  destruct (set_at_split i p (lg_passes g) Hp) as (l1 & l2 & El & Es).
  destruct (set_at_split index x (lp_datas p) Hx) as (d1 & d2 & Ed & Et).
  set (tail := [mkt LCommandPool (lg_pool g) 0 (lg_name g); mkt LQueryPool (lg_queries g) 0 (lg_name g ++ "TimerQueries")]).
  set (F := things_pd pool (lp_name p)).
  exists (graph_semaphore g :: graph_buffer g :: graph_fence g :: (flat_map (things_pass pool) l1 ++ (flat_map F d1 ++ flat_map F d2) ++ flat_map (things_pass pool) l2) ++ tail).
  assert (G : forall x', Permutation (graph_semaphore g :: graph_buffer g :: graph_fence g :: (flat_map (things_pass pool) l1 ++ (flat_map F d1 ++ F x' ++ flat_map F d2) ++ flat_map (things_pass pool) l2) ++ tail)
                        (F x' ++ graph_semaphore g :: graph_buffer g :: graph_fence g :: (flat_map (things_pass pool) l1 ++ (flat_map F d1 ++ flat_map F d2) ++ flat_map (things_pass pool) l2) ++ tail)).
  { intros x'. symmetry. change (graph_semaphore g :: graph_buffer g :: graph_fence g :: ?l) with ([graph_semaphore g; graph_buffer g; graph_fence g] ++ l).
    rewrite <- !app_assoc. rewrite (app_assoc (F x')). rewrite (Permutation_app_comm (F x')). rewrite <- app_assoc. apply Permutation_app_head.
    rewrite (app_assoc (F x')), (Permutation_app_comm (F x')), <- app_assoc. apply Permutation_app_head.
    rewrite (app_assoc (F x')), (Permutation_app_comm (F x')), <- app_assoc. apply Permutation_app_head. reflexivity. }
  split; [|split; [|split; [now left|split; [right; now left|split; [right; right; now left|]]]]].
  - rewrite <- (G x). unfold things_graph, things_members. cbn [app]. rewrite El, flat_map_app. cbn [flat_map]. unfold things_pass at 2. rewrite Ed, flat_map_app. cbn [flat_map]. fold F. fold pool.
    apply Permutation_refl.
  - exists 0, (lg_name g). right; right; right. apply in_or_app. right. now left.
  - intros x'. rewrite <- (G x'). unfold things_graph, things_members, graph_semaphore, graph_buffer, graph_fence, with_lpasses. cbn [lg_name lg_queries lg_pool lg_passes lg_buffer lg_semaphore lg_fence app].
    rewrite Es, Et, flat_map_app. cbn [flat_map]. unfold things_pass at 2. cbn [lp_name lp_datas]. rewrite flat_map_app. cbn [flat_map]. fold F pool tail. apply Permutation_refl.
Qed.

Lemma filter_unused P f : unused P f -> filter (fun x : N * N * N => negb (N.eqb (snd x) f)) P = P.
Proof. intros U. apply filter_all. intros [[b s] f'] I. destruct (U b s f' I) as (_ & _ & H). cbn. destruct (N.eqb_spec f' f); [contradiction|reflexivity]. Qed.

(* waiting for the fence of a pass, which is never submitted *)
Lemma pd_waits strict log pool name x L P : St strict log (things_pd pool name x ++ L) P -> all_unused P (things_pd pool name x) ->
  St strict (snd (lfence_wait (pd_fence x) log)) (things_pd pool name x ++ L) P.
Proof.
  intros S U. unfold lfence_wait. cbn [snd]. destruct (N.eqb_spec (lf_handle (pd_fence x)) 0) as [E|E]; [exact S|].
  assert (I : In (mkt LFence (lf_handle (pd_fence x)) 0 name) (things_pd pool name x)).
  { unfold things_pd, opt. rewrite (proj2 (N.eqb_neq _ _) E). rewrite !in_app_iff. right; right. now left. }
  rewrite <- (filter_unused P (lf_handle (pd_fence x)) (U _ I)). apply (St_waited strict log _ 0 name); [exact S|]. apply in_or_app. now left.
Qed.
Lemma record_one_ok d strict pool name t x log L P : honest d -> has_pool L pool -> St strict log (things_pd pool name x ++ L) P -> all_unused P (things_pd pool name x) ->
  match record_one d pool name t x log with
  | (log', Some x') => St strict log' (things_pd pool name x' ++ L) P
  | (log', None) => St strict log' (things_pd pool name x ++ L) P
  end.
Proof.
  intros Ho Po S U. unfold record_one.
  assert (G : forall y log1, pd_buffer y <> 0 -> St strict log1 (things_pd pool name y ++ L) P -> all_unused P (things_pd pool name y) ->
    St strict (snd (lfence_wait (pd_fence y) log1) ++ [LBegun (pd_buffer y)] ++ (if t then [] else [LEnded (pd_buffer y)])) (things_pd pool name (with_pd_fence y (fst (lfence_wait (pd_fence y) log1))) ++ L) P).
  { intros y log1 Z S1 U1. pose proof (pd_waits _ _ _ _ _ _ _ S1 U1) as S2.
    assert (I : In (mkt LBuffer (pd_buffer y) pool name) (things_pd pool name y)).
    { unfold things_pd, opt. rewrite (proj2 (N.eqb_neq _ _) Z). rewrite !in_app_iff. right; left. now left. }
    change (things_pd pool name (with_pd_fence y (fst (lfence_wait (pd_fence y) log1)))) with (things_pd pool name y).
    assert (I' : In (mkt LBuffer (pd_buffer y) pool name) (things_pd pool name y ++ L)) by (apply in_or_app; now left).
    rewrite app_assoc. pose proof (st_buffer_event _ _ _ _ _ _ _ (LBegun (pd_buffer y)) (or_intror (or_introl eq_refl)) S2 I' (U1 _ I)) as S3.
    destruct t; [rewrite app_nil_r; exact S3|]. exact (st_buffer_event _ _ _ _ _ _ _ (LEnded (pd_buffer y)) (or_intror (or_intror eq_refl)) S3 I' (U1 _ I)). }
  destruct (N.eqb_spec (pd_buffer x) 0) as [E|E].
  - destruct (lcreate d LBuffer pool name log) as [log1 [b|]] eqn:C.
    + destruct (lcreate_ok d LBuffer pool name log strict _ P log1 b Ho ltac:(intros _; apply has_pool_app; exact Po) S C) as (S1 & Ub & Zb).
      assert (Pm : Permutation (mkt LBuffer b pool name :: things_pd pool name x) (things_pd pool name (with_pd_buffer x b))).
      { unfold things_pd, with_pd_buffer, opt. cbn [pd_buffer pd_semaphore pd_fence]. rewrite E, (proj2 (N.eqb_neq _ _) Zb). cbn [N.eqb app]. apply Permutation_middle. }
      pose proof (G (with_pd_buffer x b) log1) as G1. destruct (lfence_wait (pd_fence (with_pd_buffer x b)) log1) as [f log2]. apply G1.
      * exact Zb.
      * eapply St_perm; [|exact S1]. change (mkt LBuffer b pool name :: things_pd pool name x ++ L) with ((mkt LBuffer b pool name :: things_pd pool name x) ++ L). apply Permutation_app_tail. exact Pm.
      * intros y I. rewrite <- Pm in I. destruct I as [<-|I]; [exact Ub|exact (U y I)].
    + exact (lcreate_no _ _ _ _ _ _ _ _ _ S C).
  - pose proof (G x log E S U) as G1. destruct (lfence_wait (pd_fence x) log) as [f log2]. exact G1.
Qed.
Lemma reset_one_ok strict pool name x log L P : St strict log (things_pd pool name x ++ L) P -> all_unused P (things_pd pool name x) ->
  St strict (snd (reset_one x log)) (things_pd pool name (fst (reset_one x log)) ++ L) P.
Proof.
  intros S U. unfold reset_one. destruct (N.eqb_spec (pd_buffer x) 0) as [E|E]; [exact S|].
  pose proof (pd_waits _ _ _ _ _ _ _ S U) as S2. destruct (lfence_wait (pd_fence x) log) as [f log2] eqn:Ef. cbn [fst snd] in *.
  assert (Eh : lf_handle f = lf_handle (pd_fence x)) by (unfold lfence_wait in Ef; now injection Ef as <- _).
  assert (Et : things_pd pool name (with_pd_fence x f) = things_pd pool name x) by (unfold things_pd, with_pd_fence; cbn; now rewrite Eh).
  rewrite Et. assert (I : In (mkt LBuffer (pd_buffer x) pool name) (things_pd pool name x)).
  { unfold things_pd, opt. rewrite (proj2 (N.eqb_neq _ _) E). rewrite !in_app_iff. right; left. now left. }
  apply (st_buffer_event _ _ _ _ _ pool name _ (or_introl eq_refl) S2); [apply in_or_app; now left|exact (U _ I)].
Qed.

Lemma step_data strict w leak P ops id g i index o f :
  W strict w leak P ops -> mfind id (lw_graphs w) = Some g -> (forall j, flying j (ops ++ [o]) = flying j ops) ->
  (forall name x log L, has_pool L (lg_pool g) -> St strict log (things_pd (lg_pool g) name x ++ L) P -> all_unused P (things_pd (lg_pool g) name x) ->
    match f name x log with
    | (log', Some x') => St strict log' (things_pd (lg_pool g) name x' ++ L) P
    | (log', None) => St strict log' (things_pd (lg_pool g) name x ++ L) P
    end) ->
  W strict (let '(g, log) := on_data i index f g (lw_log w) in {| lw_log := log; lw_graphs := mput id g (lw_graphs w); lw_timers := lw_timers w |}) leak P (ops ++ [o]).
Proof.
  intros Hw Hf Fl Hs. pose proof (focus _ _ _ _ _ _ _ (w_graphs _ _ _ _ _ Hw) Hf (w_st _ _ _ _ _ Hw)) as S0. set (R := rest id w leak) in *.
  assert (Same : forall g' log', lg_buffer g' = lg_buffer g -> lg_semaphore g' = lg_semaphore g -> lg_fence g' = lg_fence g -> St strict log' (things_graph g' ++ R) P ->
    W strict {| lw_log := log'; lw_graphs := mput id g' (lw_graphs w); lw_timers := lw_timers w |} leak P (ops ++ [o])).
  { intros g' log' E1 E2 E3 S'. eapply update_graph with (o := o); eauto. intros x I.
    destruct (pend_entry _ _ _ _ _ _ Hf (w_pend _ _ _ _ _ Hw) I) as [E|(A1 & A2 & A3)]; [now left|right]. split; [congruence|]. split; [congruence|]. now rewrite Fl. }
  unfold on_data. destruct (nth_error (lg_passes g) i) as [p|] eqn:Ep; [|now apply Same]. destruct (nth_error (lp_datas p) index) as [x|] eqn:Ex; [|now apply Same].
  destruct (data_split g i index p x Ep Ex) as (O & Pm & Po & I1 & I2 & I3 & Pm').
  assert (S1 : St strict (lw_log w) (things_pd (lg_pool g) (lp_name p) x ++ O ++ R) P). { eapply St_perm; [|exact S0]. rewrite app_assoc. apply Permutation_app_tail. exact Pm. }
  assert (U : all_unused P (things_pd (lg_pool g) (lp_name p) x)).
  { intros y Iy b s f' H. pose proof (st_nodup _ _ _ _ S1) as Nd. destruct (w_pend _ _ _ _ _ Hw b s f' H) as (id' & g' & F' & -> & -> & -> & _ & _).
    assert (Ap : forall z, In z (O ++ R) -> th_handle y <> th_handle z) by (intros z Iz; exact (nodup_apart _ _ y z Nd Iy Iz)).
    assert (Iz : In (graph_buffer g') (O ++ R) /\ In (graph_semaphore g') (O ++ R) /\ In (graph_fence g') (O ++ R)).
    { destruct (N.eq_dec id' id) as [->|Ne].
      - assert (g' = g) by congruence. subst g'. repeat split; apply in_or_app; now left.
      - repeat split; apply in_or_app; right; apply (things_in_rest id id' g'); auto; [apply buffer_in|apply semaphore_in|apply fence_in]. }
    destruct Iz as (Z1 & Z2 & Z3). pose proof (Ap _ Z1) as A1. pose proof (Ap _ Z2) as A2. pose proof (Ap _ Z3) as A3. cbn in A1, A2, A3. repeat split; congruence. }
  assert (Po' : has_pool (O ++ R) (lg_pool g)). { destruct Po as (pp & np & Ip). exists pp, np. apply in_or_app. now left. }
  pose proof (Hs (lp_name p) x (lw_log w) (O ++ R) Po' S1 U) as S2. destruct (f (lp_name p) x (lw_log w)) as [log' [x'|]].
  - apply Same; auto. eapply St_perm; [|exact S2]. rewrite app_assoc. apply Permutation_app_tail. symmetry. apply Pm'.
  - apply Same; auto. eapply St_perm; [|exact S2]. rewrite app_assoc. apply Permutation_app_tail. symmetry. exact Pm.
Qed.

(* ---- closed sets of objects ---- *)
Lemma closed_app A B : closed_things A -> closed_things B -> closed_things (A ++ B).
Proof. intros CA CB y I K. rewrite map_app. apply in_or_app. apply in_app_or in I as [I|I]; [left; exact (CA y I K)|right; exact (CB y I K)]. Qed.
Lemma pd_parent pool name x y : In y (things_pd pool name x) -> th_kind y = LBuffer -> th_parent y = pool.
Proof.
  unfold things_pd, opt. rewrite !in_app_iff. intros [I|[I|I]] K.
  - destruct (N.eqb (pd_semaphore x) 0); [contradiction|]. destruct I as [<-|[]]. discriminate K.
  - destruct (N.eqb (pd_buffer x) 0); [contradiction|]. destruct I as [<-|[]]. reflexivity.
  - destruct (N.eqb (lf_handle (pd_fence x)) 0); [contradiction|]. destruct I as [<-|[]]. discriminate K.
Qed.
Lemma pool_in g : In (mkt LCommandPool (lg_pool g) 0 (lg_name g)) (things_graph g).
Proof. right; right. unfold things_members. rewrite !in_app_iff. right; right. now left. Qed.
Lemma closed_graph g : closed_things (things_graph g).
Proof.
  intros y I K. assert (E : th_parent y = lg_pool g).
  { unfold things_graph, things_members in I. cbn [app In] in I. destruct I as [<-|[<-|[<-|I]]]; try discriminate K; [reflexivity|].
    apply in_app_or in I as [I|[<-|[<-|[]]]]; try discriminate K. apply in_flat_map in I as (p & _ & I). unfold things_pass in I. apply in_flat_map in I as (x & _ & I).
    exact (pd_parent _ _ _ _ I K). }
  rewrite E. exact (in_map th_handle _ _ (pool_in g)).
Qed.
Lemma closed_flat m : closed_things (gthings m).
Proof. unfold gthings. induction m as [|e m IH]; cbn [flat_map]; [intros y []|]. apply closed_app; [apply closed_graph|exact IH]. Qed.
Lemma closed_rest id w leak : (forall x, In x leak -> th_kind x = LSemaphore) -> closed_things (rest id w leak).
Proof.
  intros Lk. unfold rest. apply closed_app; [apply closed_flat|]. apply closed_app.
  - intros y I K. unfold tthings in I. apply in_map_iff in I as (e & <- & _). discriminate K.
  - intros y I K. rewrite (Lk y I) in K. discriminate K.
Qed.
Lemma closed_world w leak : (forall x, In x leak -> th_kind x = LSemaphore) -> closed_things (wthings w leak).
Proof.
  intros Lk. unfold wthings. apply closed_app; [apply closed_flat|]. apply closed_app.
  - intros y I K. unfold tthings in I. apply in_map_iff in I as (e & <- & _). discriminate K.
  - intros y I K. rewrite (Lk y I) in K. discriminate K.
Qed.

(* ---- one step of a history ---- *)
Lemma pend_same m m' ops o P : pend m ops P -> (forall id g, mfind id m = Some g -> flying id ops = true -> mfind id m' = Some g) ->
  (forall id, flying id ops = true -> mfind id m <> None -> flying id (ops ++ [o]) = true) -> pend m' (ops ++ [o]) P.
Proof.
  intros Pe Hm Fl b s f I. destruct (Pe b s f I) as (id & g & F & E1 & E2 & E3 & Wt & Fy). exists id, g. split; [exact (Hm id g F Fy)|]. repeat (split; [assumption|]). apply Fl; [exact Fy|congruence].
Qed.
Lemma W_keep strict w leak P ops o : W strict w leak P ops -> (forall id, mfind id (lw_graphs w) <> None -> flying id ops = true -> flying id (ops ++ [o]) = true) -> W strict w leak P (ops ++ [o]).
Proof. intros [S Kg Kt Lk Pe] Fl. split; auto. eapply pend_same; eauto. Qed.

Lemma tthings_perm_put id h m : keys_sorted m -> mfind id m = None -> Permutation (tthings (mput id h m)) (mkt LQueryPool (fst h) 0 (snd h) :: tthings m).
Proof. intros S F. unfold tthings. rewrite (Permutation_map _ (put_perm id h m S)). cbn. now rewrite (erase_absent _ _ F). Qed.
Lemma tthings_perm_find id h m : keys_sorted m -> mfind id m = Some h -> Permutation (tthings m) (mkt LQueryPool (fst h) 0 (snd h) :: tthings (merase id m)).
Proof. intros S F. unfold tthings. rewrite (Permutation_map _ (find_perm id h m S F)). reflexivity. Qed.

Lemma step_W d strict w leak P ops o : honest d -> W strict w leak P ops ->
  (forall id, o = ODelete id -> flying id ops = false) ->
  exists strict' leak' P', W strict' (lstep d w o) leak' P' (ops ++ [o]) /\
    ((strict' = strict /\ leak' = leak) \/
     exists id g evs h, o = ONew id g /\ mfind id (lw_graphs w) = None /\ new_lgraph d g (lw_log w) = (lw_log w ++ evs, None) /\ has_semaphore evs /\
       strict' = false /\ leak' = mkt LSemaphore h 0 (gp_name g ++ "/Graph") :: leak).
Proof.
  intros Ho Hw Hd. pose proof (w_st _ _ _ _ _ Hw) as S0. pose proof (w_leak _ _ _ _ _ Hw) as Lk.
  destruct o as [id g|id|id t|id t|id|id i j t|id i j|id name|id]; cbn [lstep].
  - (* ONew *)
    destruct (mfind id (lw_graphs w)) as [g0|] eqn:F.
    + exists strict, leak, P. split; [apply W_keep; [exact Hw|]; intros i _ Fy; now rewrite flying_snoc|now left].
    + pose proof (new_lgraph_ok d g (lw_log w) strict (wthings w leak) P Ho (closed_world w leak Lk) S0) as N.
      destruct (new_lgraph d g (lw_log w)) as [log' [g'|]] eqn:En.
      * destruct N as [N1 N2]. exists strict, leak, P. split; [|now left]. destruct Hw as [_ Kg Kt _ Pe]. split; cbn [lw_log lw_graphs lw_timers]; auto.
        -- eapply St_perm; [|exact N1]. unfold wthings. cbn [lw_graphs lw_timers]. rewrite (gthings_put id g' _ Kg), (erase_absent _ _ F), <- app_assoc. reflexivity.
        -- now apply mput_sorted.
        -- eapply pend_same; [exact Pe| |intros i Fy _; now rewrite flying_snoc]. intros i gi Fi _. rewrite mfind_mput. destruct (N.eqb_spec i id); congruence.
      * destruct N as (evs & -> & [[Hs N1]|(h & Ih & Uh & N1)]).
        -- exists strict, leak, P. split; [|now left]. destruct Hw as [_ Kg Kt _ Pe]. split; cbn [lw_log lw_graphs lw_timers]; auto.
           eapply pend_same; [exact Pe|auto|intros i Fy _; now rewrite flying_snoc].
        -- exists false, (mkt LSemaphore h 0 (gp_name g ++ "/Graph") :: leak), P. split.
           ++ destruct Hw as [_ Kg Kt _ Pe]. split; cbn [lw_log lw_graphs lw_timers]; auto.
              ** eapply St_perm; [|exact N1]. unfold wthings. cbn [lw_graphs lw_timers]. rewrite (app_assoc (gthings _)), (app_assoc (gthings (lw_graphs w))). apply Permutation_middle.
              ** intros x [<-|I]; [reflexivity|exact (Lk x I)].
              ** eapply pend_same; [exact Pe|auto|intros i Fy _; now rewrite flying_snoc].
           ++ right. exists id, g, evs, h. split; [reflexivity|]. split; [exact F|]. split; [exact En|]. split; [|split; reflexivity].
              exists h. exists 0. exists (gp_name g ++ "/Graph")%string. exact Ih.
  - (* ODelete *)
    exists strict, leak, P. split; [|now left]. destruct (mfind id (lw_graphs w)) as [g|] eqn:F.
    + pose proof (focus _ _ _ _ _ _ _ (w_graphs _ _ _ _ _ Hw) F S0) as S1. pose proof (st_nodup _ _ _ _ S1) as Nd.
      pose proof (pend_away id g _ ops P F (w_pend _ _ _ _ _ Hw) (or_introl (Hd id eq_refl))) as Aw.
      pose proof (away_unused id w leak P (things_graph g) Nd Aw) as U.
      assert (Or : orphan (rest id w leak) (lg_pool g)).
      { apply closed_orphan; [exact (closed_rest id w leak Lk)|]. intros I. apply in_map_iff in I as (y & E & I). exact (nodup_apart _ _ _ y Nd (pool_in g) I (eq_sym E)). }
      pose proof (destroy_lgraph_ok _ _ _ _ _ S1 U Or) as S2. destruct Hw as [_ Kg Kt _ Pe]. split; cbn [lw_log lw_graphs lw_timers]; auto.
      * now apply merase_sorted.
      * eapply pend_same; [exact Pe| |].
        -- intros i gi Fi Fy. rewrite merase_find. destruct (N.eqb_spec i id) as [->|]; [|exact Fi]. rewrite (Hd id eq_refl) in Fy. discriminate Fy.
        -- intros i Fy _. rewrite flying_snoc. cbn. destruct (N.eqb_spec id i) as [->|]; [|exact Fy]. rewrite (Hd i eq_refl) in Fy. discriminate Fy.
    + apply W_keep; [exact Hw|]. intros i Fi Fy. rewrite flying_snoc. cbn. destruct (N.eqb_spec id i) as [->|]; [congruence|exact Fy].
  - (* ORecordGraph *)
    exists strict, leak. destruct (mfind id (lw_graphs w)) as [g|] eqn:F.
    + destruct (step_record _ _ _ _ _ _ _ Hw F t) as (P' & H). exists P'. auto.
    + exists P. split; [|now left]. unfold on_lgraph. rewrite F. apply W_keep; [exact Hw|]. intros i _ Fy. now rewrite flying_snoc.
  - (* ORunGraph *)
    exists strict, leak. destruct (mfind id (lw_graphs w)) as [g|] eqn:F.
    + destruct (step_run _ _ _ _ _ _ _ Hw F t) as (P' & H). exists P'. auto.
    + exists P. split; [|now left]. unfold on_lgraph. rewrite F. apply W_keep; [exact Hw|]. intros i _ Fy. rewrite flying_snoc. cbn. now destruct (N.eqb id i).
  - (* OWaitGraph *)
    exists strict, leak. destruct (mfind id (lw_graphs w)) as [g|] eqn:F.
    + destruct (step_wait _ _ _ _ _ _ _ Hw F (OWaitGraph id)) as (P' & H); [|exists P'; auto]. intros i Ni. rewrite flying_snoc. cbn. destruct (N.eqb_spec id i); [congruence|reflexivity].
    + exists P. split; [|now left]. unfold on_lgraph. rewrite F. apply W_keep; [exact Hw|]. intros i Fi Fy. rewrite flying_snoc. cbn. destruct (N.eqb_spec id i) as [->|]; [congruence|exact Fy].
  - (* OReRecord *)
    exists strict, leak, P. split; [|now left]. unfold on_lgraph. destruct (mfind id (lw_graphs w)) as [g|] eqn:F; [|apply W_keep; [exact Hw|]; intros i' _ Fy; now rewrite flying_snoc].
    apply (step_data strict w leak P ops id g i j (OReRecord id i j t)); auto; [intros k; now rewrite flying_snoc|].
    intros n x log L Po S U. now apply record_one_ok.
  - (* OResetBuffer *)
    exists strict, leak, P. split; [|now left]. unfold on_lgraph. destruct (mfind id (lw_graphs w)) as [g|] eqn:F; [|apply W_keep; [exact Hw|]; intros i' _ Fy; now rewrite flying_snoc].
    apply (step_data strict w leak P ops id g i j (OResetBuffer id i j)); auto; [intros k; now rewrite flying_snoc|].
    intros n x log L Po S U. pose proof (reset_one_ok strict (lg_pool g) n x log L P S U) as H. destruct (reset_one x log). exact H.
  - (* ONewTimer *)
    exists strict, leak, P. split; [|now left]. destruct (mfind id (lw_timers w)) as [h0|] eqn:F; [apply W_keep; [exact Hw|]; intros i' _ Fy; now rewrite flying_snoc|].
    destruct (lcreate d LQueryPool 0 name (lw_log w)) as [log' [h|]] eqn:C.
    + destruct (lcreate_ok d LQueryPool 0 name (lw_log w) strict _ P log' h Ho ltac:(discriminate) S0 C) as (S1 & _ & _).
      destruct Hw as [_ Kg Kt _ Pe]. split; cbn [lw_log lw_graphs lw_timers]; auto.
      * eapply St_perm; [|exact S1]. unfold wthings. cbn [lw_graphs lw_timers]. rewrite (tthings_perm_put id (h, name) _ Kt F). cbn [fst snd app]. apply Permutation_middle.
      * now apply mput_sorted.
      * eapply pend_same; [exact Pe|auto|intros i Fy _; now rewrite flying_snoc].
    + pose proof (lcreate_no _ _ _ _ _ _ _ _ _ S0 C) as S1. destruct Hw as [_ Kg Kt _ Pe]. split; cbn [lw_log lw_graphs lw_timers]; auto.
      eapply pend_same; [exact Pe|auto|intros i Fy _; now rewrite flying_snoc].
  - (* ODeleteTimer *)
    exists strict, leak, P. split; [|now left]. destruct (mfind id (lw_timers w)) as [[h name]|] eqn:F; [|apply W_keep; [exact Hw|]; intros i' _ Fy; now rewrite flying_snoc].
    pose proof (w_timers _ _ _ _ _ Hw) as Kt.
    assert (S1 : St strict (lw_log w) (mkt LQueryPool h 0 name :: wthings {| lw_log := lw_log w; lw_graphs := lw_graphs w; lw_timers := merase id (lw_timers w) |} leak) P).
    { eapply St_perm; [|exact S0]. unfold wthings. cbn [lw_graphs lw_timers]. rewrite (tthings_perm_find id (h, name) _ Kt F). cbn [fst snd app]. symmetry. apply Permutation_middle. }
    assert (U : unused P h).
    { intros b s f I. destruct (w_pend _ _ _ _ _ Hw b s f I) as (i & g & Fi & -> & -> & -> & _). pose proof (st_fresh _ _ _ _ _ S1) as Nf. cbn [th_handle mkt] in Nf.
      assert (Ig : forall y, In y (things_graph g) -> th_handle y <> h).
      { intros y Iy E. apply Nf. rewrite <- E. apply in_map. unfold wthings. apply in_or_app. left. unfold gthings. apply in_flat_map. exists (i, g). split; [exact (mfind_in' _ _ _ Fi)|exact Iy]. }
      split; [exact (Ig _ (buffer_in g))|]. split; [exact (Ig _ (semaphore_in g))|exact (Ig _ (fence_in g))]. }
    pose proof (St_destroyed strict (lw_log w) LQueryPool h 0 name _ P ltac:(discriminate) S1 U) as S2. destruct Hw as [_ Kg _ _ Pe]. split; cbn [lw_log lw_graphs lw_timers]; auto.
    + now apply merase_sorted.
    + eapply pend_same; [exact Pe|auto|intros i Fy _; now rewrite flying_snoc].
Qed.

Lemma lrun_snoc d ops o : lrun d (ops ++ [o]) = lstep d (lrun d ops) o.
Proof. unfold lrun. now rewrite fold_left_app. Qed.
Lemma waits_prefix ops o : waits_first (ops ++ [o]) -> waits_first ops /\ forall id, o = ODelete id -> flying id ops = false.
Proof.
  intros H. split.
  - intros before id after E. apply (H before id (after ++ [o])). rewrite E, <- app_assoc. reflexivity.
  - intros id ->. exact (H ops id [] eq_refl).
Qed.
Lemma late_prefix d ops o : no_late_throw d (ops ++ [o]) -> no_late_throw d ops.
Proof. intros H before id g after evs E. apply (H before id g (after ++ [o]) evs). rewrite E, <- app_assoc. reflexivity. Qed.
Lemma run_W d ops : honest d -> waits_first ops -> exists strict leak P, W strict (lrun d ops) leak P ops /\ (no_late_throw d ops -> strict = true /\ leak = []).
Proof.
  intros Ho. induction ops as [|o ops IH] using rev_ind; intros Hw.
  - exists true, [], []. split; [|auto]. split; [exact St_start|constructor|constructor|intros x []|intros b s f []].
  - destruct (waits_prefix _ _ Hw) as [H1 H2]. destruct (IH H1) as (strict & leak & P & HW & Hl).
    destruct (step_W d strict _ leak P ops o Ho HW H2) as (s' & l' & P' & HW' & C). exists s', l', P'. rewrite lrun_snoc. split; [exact HW'|].
    intros Hn. destruct (Hl (late_prefix _ _ _ Hn)) as [-> ->]. destruct C as [[-> ->]|(id & g & evs & h & -> & F & E & Hs & _)]; [auto|].
    exfalso. exact (Hn ops id g [] evs eq_refl (conj F E) Hs).
Qed.

(* ---- all deleted ---- *)
Lemma new_open d graphs ops id : fold_left (open_step graphs id) ops false = false ->
  if graphs then mfind id (lw_graphs (lrun d ops)) = None else mfind id (lw_timers (lrun d ops)) = None.
Proof.
  assert (G : fold_left (open_step graphs id) ops false = true \/ (if graphs then mfind id (lw_graphs (lrun d ops)) = None else mfind id (lw_timers (lrun d ops)) = None)); [|intros E; destruct G as [G|G]; [congruence|exact G]].
  induction ops as [|o ops IH] using rev_ind; [right; destruct graphs; reflexivity|]. rewrite fold_left_app, lrun_snoc. cbn [fold_left].
  assert (Og : forall f i w, mfind id (lw_graphs w) = None -> mfind id (lw_graphs (on_lgraph f i w)) = None).
  { intros f i w F. unfold on_lgraph. destruct (mfind i (lw_graphs w)) as [g|] eqn:Fi; [|exact F]. destruct (f g (lw_log w)). cbn. rewrite mfind_mput. destruct (N.eqb_spec id i); [congruence|exact F]. }
  assert (Ot : forall f i w, lw_timers (on_lgraph f i w) = lw_timers w).
  { intros f i w. unfold on_lgraph. destruct (mfind i (lw_graphs w)) as [g|]; [|reflexivity]. now destruct (f g (lw_log w)). }
  destruct graphs; destruct o as [i g|i|i t|i t|i|i a b t|i a b|i name|i]; cbn [open_step andb negb lstep]; rewrite ?Ot;
    try (destruct IH as [IH|IH]; [now left|right; now apply Og]); try exact IH.
  - destruct (N.eqb_spec i id) as [->|E]; [now left|]. destruct IH as [IH|IH]; [now left|right]. destruct (mfind i (lw_graphs (lrun d ops))); [exact IH|].
    destruct (new_lgraph d g (lw_log (lrun d ops))) as [log' [g'|]]; [|exact IH]. cbn. rewrite mfind_mput. destruct (N.eqb_spec id i); [congruence|exact IH].
  - destruct (N.eqb_spec i id) as [->|E].
    + right. destruct (mfind id (lw_graphs (lrun d ops))) as [g|] eqn:F; [|exact F]. cbn. rewrite merase_find, N.eqb_refl. reflexivity.
    + destruct IH as [IH|IH]; [now left|right]. destruct (mfind i (lw_graphs (lrun d ops))); [|exact IH]. cbn. rewrite merase_find, IH. now destruct (N.eqb id i).
  - destruct IH as [IH|IH]; [now left|right]. destruct (mfind i (lw_timers (lrun d ops))); [exact IH|]. now destruct (lcreate d LQueryPool 0 name (lw_log (lrun d ops))) as [log' [h|]].
  - destruct IH as [IH|IH]; [now left|right]. now destruct (mfind i (lw_timers (lrun d ops))) as [[h n]|].
  - destruct IH as [IH|IH]; [now left|right]. destruct (mfind i (lw_graphs (lrun d ops))); [exact IH|]. now destruct (new_lgraph d g (lw_log (lrun d ops))) as [log' [g'|]].
  - destruct IH as [IH|IH]; [now left|right]. now destruct (mfind i (lw_graphs (lrun d ops))).
  - destruct (N.eqb_spec i id) as [->|E]; [now left|]. destruct IH as [IH|IH]; [now left|right]. destruct (mfind i (lw_timers (lrun d ops))); [exact IH|].
    destruct (lcreate d LQueryPool 0 name (lw_log (lrun d ops))) as [log' [h|]]; [|exact IH]. cbn. rewrite mfind_mput. destruct (N.eqb_spec id i); [congruence|exact IH].
  - destruct (N.eqb_spec i id) as [->|E].
    + right. destruct (mfind id (lw_timers (lrun d ops))) as [[h n]|] eqn:F; [|exact F]. cbn. rewrite merase_find, N.eqb_refl. reflexivity.
    + destruct IH as [IH|IH]; [now left|right]. destruct (mfind i (lw_timers (lrun d ops))) as [[h n]|]; [|exact IH]. cbn. rewrite merase_find, IH. now destruct (N.eqb id i).
Qed.
Lemma all_none {V} (m : nmap V) : (forall id, mfind id m = None) -> m = [].
Proof. destruct m as [|[k v] r]; [reflexivity|]. intros H. specialize (H k). cbn in H. now rewrite N.eqb_refl in H. Qed.
Lemma deleted_empty d ops : all_deleted ops -> lw_graphs (lrun d ops) = [] /\ lw_timers (lrun d ops) = [].
Proof. intros H. split; apply all_none; intros id; [exact (new_open d true ops id (H true id))|exact (new_open d false ops id (H false id))]. Qed.

(* ---- counting ---- *)
Definition count_living (k : lkind) (h : N) (log : list levent) : nat := List.length (filter (is_thing k h) (living_things log)).
Lemma well_used_prefix log x : well_used (log ++ [x]) -> well_used log /\ permitted log x.
Proof.
  intros H. split.
  - intros before e after E. apply (H before e (after ++ [x])). rewrite E, <- app_assoc. reflexivity.
  - exact (H log x [] eq_refl).
Qed.
Lemma nodup_filter (f : thing -> bool) l : NoDup (map th_handle l) -> NoDup (map th_handle (filter f l)).
Proof.
  induction l as [|x l IH]; cbn; intros H; [constructor|]. apply NoDup_cons_iff in H as [H1 H2]. destruct (f x); cbn; [|exact (IH H2)]. constructor; [|exact (IH H2)].
  intros I. apply H1. apply in_map_iff in I as (y & E & I). apply filter_In in I as [I _]. rewrite <- E. apply in_map. exact I.
Qed.
Lemma used_nodup log : well_used log -> NoDup (map th_handle (living_things log)).
Proof.
  induction log as [|e log IH] using rev_ind; intros H; [constructor|]. destruct (well_used_prefix _ _ H) as [H1 H2]. specialize (IH H1). rewrite living_snoc.
  destruct e; cbn [living_step]; auto; try (apply nodup_filter; exact IH). destruct H2 as [H2 _]. rewrite map_app. cbn.
  apply (Permutation_NoDup (Permutation_cons_append _ _)). constructor; assumption.
Qed.
Lemma count_one k h l : NoDup (map th_handle l) -> (exists x, In x l /\ is_thing k h x = true) -> List.length (filter (is_thing k h) l) = 1%nat.
Proof.
  induction l as [|y l IH]; intros N (x & I & T); [destruct I|]. cbn in N. apply NoDup_cons_iff in N as [N1 N2]. cbn. destruct I as [->|I].
  - rewrite T. cbn. f_equal. rewrite filter_none; [reflexivity|]. intros z Iz. destruct (is_thing k h z) eqn:E; [|reflexivity]. exfalso. apply is_thing_eq in E as [_ E]. apply is_thing_eq in T as [_ T].
    apply N1. rewrite T, <- E. apply in_map. exact Iz.
  - destruct (is_thing k h y) eqn:E; [|exact (IH N2 (ex_intro _ x (conj I T)))]. exfalso. apply is_thing_eq in E as [_ E]. apply is_thing_eq in T as [_ T].
    apply N1. rewrite E, <- T. apply in_map. exact I.
Qed.
Lemma filter_filter {A} (f g : A -> bool) l : filter f (filter g l) = filter (fun x => andb (g x) (f x)) l.
Proof. induction l as [|x l IH]; cbn; [reflexivity|]. destruct (g x); cbn; [destruct (f x); cbn; now rewrite IH|exact IH]. Qed.
Lemma counts log k h : k <> LBuffer -> well_used log -> creations k h log = (destructions k h log + count_living k h log)%nat.
Proof.
  intros Kb. induction log as [|e log IH] using rev_ind; intros H; [reflexivity|]. destruct (well_used_prefix _ _ H) as [H1 H2]. specialize (IH H1).
  pose proof (used_nodup _ H1) as Nd. unfold creations, destructions, count_living in *. rewrite !filter_app, !app_length, living_snoc.
  destruct e; cbn [filter List.length living_step]; rewrite ?Nat.add_0_r; auto.
  - rewrite filter_app, app_length. cbn [filter]. unfold is_thing at 2. cbn [th_kind th_handle]. destruct (kind_eqb k0 k && N.eqb h0 h)%bool; cbn [List.length]; rewrite IH; now rewrite Nat.add_assoc.
  - rewrite filter_filter. destruct H2 as [(p & n & Lv) _].
    destruct (kind_eqb k0 k && N.eqb h0 h)%bool eqn:E; cbn [List.length].
    + apply Bool.andb_true_iff in E as [E1 E2]. apply kind_eqb_eq in E1. apply N.eqb_eq in E2. subst k0 h0.
      rewrite (count_one k h) in IH; [|exact Nd|eexists; split; [exact Lv|now apply is_thing_eq]].
      rewrite IH. rewrite (filter_none _ (living_things log)); [cbn; now rewrite Nat.add_0_r|]. intros x _. destruct (is_thing k h x); cbn; [reflexivity|apply Bool.andb_false_r].
    + rewrite IH, Nat.add_0_r. f_equal. f_equal. apply filter_ext. intros x. destruct (is_thing k h x) eqn:Ex; [|now rewrite Bool.andb_false_r].
      apply is_thing_eq in Ex as [Ek Eh]. rewrite Bool.andb_true_r. symmetry. apply Bool.negb_true_iff. apply Bool.orb_false_iff. split.
      * unfold is_thing. rewrite Ek, Eh. destruct (kind_eqb k k0) eqn:E1; [|reflexivity]. apply kind_eqb_eq in E1. subst k0. replace (kind_eqb k k) with true in E by (symmetry; now apply kind_eqb_eq). cbn in E |- *. rewrite N.eqb_sym. exact E.
      * rewrite Ek. destruct (kind_eqb k LBuffer) eqn:E1; [apply kind_eqb_eq in E1; contradiction|]. cbn. apply Bool.andb_false_r.
  - destruct (kind_eqb LBuffer k) eqn:E; [apply kind_eqb_eq in E; congruence|]. cbn [andb]. cbn [List.length]. rewrite Nat.add_0_r, filter_filter, IH. f_equal. f_equal. apply filter_ext. intros x.
    destruct (is_thing k h x) eqn:Ex; [|now rewrite Bool.andb_false_r]. apply is_thing_eq in Ex as [Ek _]. rewrite Bool.andb_true_r. symmetry. apply Bool.negb_true_iff. unfold is_thing. rewrite Ek.
    destruct (kind_eqb k LBuffer) eqn:E1; [apply kind_eqb_eq in E1; contradiction|reflexivity].
Qed.
