(* C39, C40: GPU timers. *)
From Verif Require Import Spec_Timer Proof_Float Proof_Timer.
From Coq Require Import Lia Lqa Qpower Qfield.
Local Open Scope N_scope.

(** C39: the timers of a graph (timer 0 is the one of the graph, then one per pass) share one query pool.
    Whatever is called on a timer, in any order, every query it resets, writes or reads belongs to that
    timer alone and to the pool. *)
Theorem C39_no_collision : forall passes nodes i j ti tj li lj ei ej q,
  (passes <= nodes)%nat -> 4 * (N.of_nat nodes + 1) < 2 ^ 32 ->
  nth_error (graph_timers passes) i = Some ti -> nth_error (graph_timers passes) j = Some tj ->
  In ei (snd (timer_ops ti li)) -> In ej (snd (timer_ops tj lj)) ->
  touches ei q -> q < pool_size (N.of_nat nodes) /\ (touches ej q -> i = j).
Proof.
  intros passes nodes i j ti tj li lj ei ej q Hp Hn Hi Hj Hei Hej Hq.
  destruct (graph_timer_queries passes nodes i ti li ei q Hp Hn Hi Hei Hq) as [A B].
  split; [exact B|]. intro Hq'.
  destruct (graph_timer_queries passes nodes j tj lj ej q Hp Hn Hj Hej Hq') as [C D]. lia.
Qed.
Print Assumptions C39_no_collision.

(* A measure writes its two timestamps in one pair of queries it has just reset, and nothing else; the
   next measure of the same timer uses the other pair, so reading the previous result stays possible while the
   next one is under way. *)
Theorem C39_measure_pair : forall passes i t before between later,
  4 * (N.of_nat passes + 1) < 2 ^ 32 ->
  nth_error (graph_timers passes) i = Some t ->
  (forall o, In o between -> o <> TBegin) -> (forall o, In o later -> o <> TBegin) ->
  let t0 := fst (timer_ops t before) in
  let t1 := fst (timer_op t0 TBegin) in
  let t2 := fst (timer_ops t1 between) in
  let t3 := fst (timer_ops (fst (timer_op t2 TEnd)) later) in
  exists o o',
    snd (timer_op t0 TBegin) = [ECmd (QReset o 2); ECmd (QWrite o)] /\
    snd (timer_op t2 TEnd) = [ECmd (QWrite (o + 1))] /\
    snd (timer_op t3 TBegin) = [ECmd (QReset o' 2); ECmd (QWrite o')] /\
    (o' + 2 = o \/ o + 2 = o').
Proof.
  intros passes i t before between later Hn Ht Hb Hl t0 t1 t2 t3.
  unfold graph_timers in Ht. apply make_timers_nth in Ht; [|lia]. destruct Ht as [Ho Hi].
  pose proof (ops_offsets (0 + 4 * N.of_nat i) before t Ho) as Ho0. fold t0 in Ho0.
  assert (B : 0 + 4 * N.of_nat i + 3 < 2 ^ 32) by lia.
  destruct (measure_pair _ t0 between B Ho0 Hb) as (o & E1 & E2 & H). destruct (H later Hl) as (o' & E3 & D).
  exists o, o'. auto.
Qed.
Print Assumptions C39_measure_pair.
Example C39_applies :
  length (graph_timers 3) = 4%nat /\ pool_size 3 = 16 /\
  option_map (fun t => snd (timer_ops t [TBegin; TEnd; TNotify; TRetrieve; TBegin; TEnd; TBegin])) (nth_error (graph_timers 3) 2) =
    Some [ECmd (QReset 10 2); ECmd (QWrite 10); ECmd (QWrite 11); ERead 10; ECmd (QReset 8 2); ECmd (QWrite 8); ECmd (QWrite 9); ECmd (QReset 10 2); ECmd (QWrite 10)].
Proof. repeat split; reflexivity. Qed.

(** C40: false in general.  A pass disabled when the graph is recorded and enabled when the timers are
    notified makes the host wait for a measure that was never made: the second measure below was recorded but never
    submitted. *)
Theorem C40_unmade_measure_refuted : exists l,
  gops (fst (new_timer 0), empty_pool, 0) l = None.
Proof. exists [GRunOp false true; GRunOp true true; GRec true; GRetrieve]. vm_compute. reflexivity. Qed.
Print Assumptions C40_unmade_measure_refuted.

(* C40, when a pass notified in a run is one which was recorded in that run: every pair of queries read holds
   the two timestamps of one and the same completed measure. *)
Theorem C40_complete_measures_partial : forall passes i t l,
  4 * (N.of_nat passes + 1) < 2 ^ 32 -> nth_error (graph_timers passes) i = Some t ->
  (forall rec notified, In (GRunOp rec notified) l -> notified = true -> rec = true) ->
  exists s, gops (t, empty_pool, 0) l = Some s.
Proof.
  intros passes i t l Hn Ht Hl. unfold graph_timers in Ht.
  assert (K : exists base, t = fst (new_timer base) /\ base + 3 < 2 ^ 32).
  { assert (G : forall count base i t, base + 4 * N.of_nat count < 2 ^ 32 -> nth_error (make_timers count base) i = Some t ->
               exists b, t = fst (new_timer b) /\ b + 3 < 2 ^ 32).
    { induction count as [|n IH]; intros base k x Hb H; [destruct k; discriminate|]. destruct k as [|k]; simpl in H.
      - injection H as <-. exists base. split; [reflexivity|lia].
      - apply IH in H; [exact H|]. rewrite u32_small by lia. lia. }
    apply (G (S passes) 0 i t); [lia|exact Ht]. }
  destruct K as (base & -> & Hb). apply (life_ok base l Hb); [apply life_start; exact Hb|].
  intros o Ho. destruct o as [|r n|]; simpl; auto. intro E. exact (Hl r n Ho E).
Qed.
Print Assumptions C40_complete_measures_partial.
Example C40_partial_applies :
  let l := [GRunOp true true; GRetrieve; GRunOp false false; GRunOp true true; GRec true; GRunOp true true; GRetrieve; GRetrieve] in
  (forall rec notified, In (GRunOp rec notified) l -> notified = true -> rec = true) /\
  exists s, gops (fst (new_timer 0), empty_pool, 0) l = Some s.
Proof.
  cbv zeta. split.
  - intros r n H. simpl in H. repeat (destruct H as [H|H]; [try discriminate; injection H as <- <-; auto|]). contradiction.
  - eexists. vm_compute. reflexivity.
Qed.

(* A pair of queries is read only when a measure was ended on it since the last time it was read, whatever the order of the calls (a pass
   notified without having been recorded, questions at any time). *)
Definition ended (tr : list tevent) (o : N) : Prop := exists a b, tr = (a ++ ECmd (QWrite (o + 1)) :: b)%list /\ ~ In (ERead o) b.
Lemma ended_more tr l o : ended tr o -> ~ In (ERead o) l -> ended (tr ++ l) o.
Proof. intros (a & b & -> & H) Hl. exists a, (b ++ l)%list. rewrite <- app_assoc. split; [reflexivity|]. intro K. apply in_app_or in K. tauto. Qed.
Definition reads_ended (tr : list tevent) : Prop := forall pre o post, tr = (pre ++ ERead o :: post)%list -> ended pre o.
Lemma reads_more tr l : reads_ended tr -> (forall o, ~ In (ERead o) l) -> reads_ended (tr ++ l).
Proof.
  intros H Hl pre o post E. assert (G : forall x : list tevent, forall y, (x ++ y = pre ++ ERead o :: post)%list -> (forall o, ~ In (ERead o) y) -> exists post', x = (pre ++ ERead o :: post')%list).
  { clear. intros x. revert pre. induction x as [|e x IH]; intros pre y E Hy.
    - exfalso. apply (Hy o). cbn in E. rewrite E. apply in_or_app. right. left. reflexivity.
    - destruct pre as [|e' pre]; cbn [app] in E; injection E as -> E; [exists x; reflexivity|]. destruct (IH pre y E Hy) as [post' ->]. exists post'. reflexivity. }
  destruct (G tr l E Hl) as [post' ->]. apply (H pre o post'). reflexivity.
Qed.
Definition traced (base : N) (t : timer) (tr : list tevent) : Prop :=
  base + 3 < 2 ^ 32 /\ ((q_offset (t_front t) = base /\ q_offset (t_back t) = base + 2) \/ (q_offset (t_front t) = base + 2 /\ q_offset (t_back t) = base)) /\
  (q_written (t_front t) = true -> ended tr (q_offset (t_front t))) /\ (q_written (t_back t) = true -> ended tr (q_offset (t_back t))) /\ reads_ended tr.
Lemma traced_op base t tr o : traced base t tr -> traced base (fst (timer_op t o)) (tr ++ snd (timer_op t o)).
Proof.
  intros (Hb & Ho & Hf & Hk & Hr). destruct o; cbn [timer_op].
  - unfold beginPass. cbn [fst snd map]. split; [exact Hb|]. cbn [t_front t_back q_offset q_written]. split; [tauto|].
    assert (No : forall x, ~ In (ERead x) [ECmd (QReset (q_offset (t_back t)) 2); ECmd (QWrite (u32 (q_offset (t_back t) + 0)))]) by (intros x [H|[H|[]]]; discriminate).
    split; [intro W; apply ended_more; [apply Hk, W|apply No]|]. split; [intro W; apply ended_more; [apply Hf, W|apply No]|]. apply reads_more; [exact Hr|exact No].
  - unfold endPass. cbn [fst snd map]. split; [exact Hb|]. cbn [t_front t_back q_offset q_written]. split; [exact Ho|].
    assert (No : forall x, ~ In (ERead x) [ECmd (QWrite (u32 (q_offset (t_front t) + 1)))]) by (intros x [H|[]]; discriminate).
    split; [|split; [intro W; apply ended_more; [apply Hk, W|apply No]|apply reads_more; [exact Hr|exact No]]].
    intros _. exists tr, []. split; [|intros []]. do 4 f_equal. unfold u32. apply N.mod_small. destruct Ho as [[-> _]|[-> _]]; lia.
  - unfold notifyPassRender. cbn [fst snd]. rewrite app_nil_r. split; [exact Hb|]. cbn [t_front t_back q_offset q_written]. auto.
  - unfold retrieve. destruct (andb (q_started (t_front t)) (q_written (t_front t))) eqn:E; cbn [fst snd]; [|rewrite app_nil_r; split; [exact Hb|auto]].
    apply andb_prop in E. destruct E as [_ E]. split; [exact Hb|]. cbn [t_front t_back q_offset q_written fresh_query]. split; [exact Ho|]. split; [discriminate|]. split.
    + intro W. apply ended_more; [apply Hk, W|]. intros [H|[]]. injection H as H. destruct Ho as [[A B]|[A B]]; rewrite A, B in H; lia.
    + intros pre x post Ep. destruct (exists_last (l := ERead x :: post) ltac:(discriminate)) as (init & last & El). rewrite El, app_assoc in Ep. apply app_inj_tail in Ep. destruct Ep as [Ep1 Ep2].
      destruct post as [|e post].
      * destruct init as [|e init]; cbn in El; [|injection El as _ El; destruct init; discriminate]. injection El as El. rewrite app_nil_r in Ep1. subst pre. rewrite <- El in Ep2. injection Ep2 as <-. apply Hf, E.
      * destruct init as [|e' init]; cbn in El; [discriminate|]. injection El as E1 El. subst e'. apply (Hr pre x init). exact Ep1.
Qed.
Theorem C40_reads_what_was_ended : forall base l pre o post, base + 3 < 2 ^ 32 ->
  snd (timer_ops (fst (new_timer base)) l) = (pre ++ ERead o :: post)%list ->
  exists a b, pre = (a ++ ECmd (QWrite (o + 1)) :: b)%list /\ ~ In (ERead o) b.
Proof.
  intros base l pre o post Hb E.
  assert (G : forall l t tr, traced base t tr -> traced base (fst (timer_ops t l)) (tr ++ snd (timer_ops t l))).
  { clear. induction l as [|x l IH]; intros t tr H; [cbn; rewrite app_nil_r; exact H|]. cbn [timer_ops]. pose proof (traced_op base t tr x H) as H1. destruct (timer_op t x) as [t1 l1]. cbn [fst snd] in H1.
    pose proof (IH t1 _ H1) as H2. destruct (timer_ops t1 l) as [t2 l2]. cbn [fst snd] in *. rewrite app_assoc. exact H2. }
  assert (S0 : traced base (fst (new_timer base)) []).
  { split; [exact Hb|]. cbn [new_timer fst t_front t_back fresh_query q_offset q_written]. split; [left; split; [reflexivity|apply N.mod_small; lia]|]. split; [discriminate|]. split; [discriminate|].
    intros pre0 o0 post0 K. destruct pre0; discriminate. }
  destruct (G l _ _ S0) as (_ & _ & _ & _ & R). exact (R pre o post E).
Qed.
Print Assumptions C40_reads_what_was_ended.
Example C40_reads_applies : snd (timer_ops (fst (new_timer 0)) [TNotify; TRetrieve; TBegin; TNotify; TRetrieve; TEnd; TRetrieve; TNotify; TRetrieve]) =
  [ECmd (QReset 2 2); ECmd (QWrite 2); ECmd (QWrite 3); ERead 2].
Proof. vm_compute. reflexivity. Qed.

(* C40: the floats of the model are those of IEEE 754: a conversion and a quotient give the nearest float. *)
Theorem C40_nearest_float : forall n d f, (0 <= n)%Z -> (0 < d)%Z -> to_f32 n d = Some f -> nearest (inject_Z n / inject_Z d) (value f).
Proof. intros n d f Hn Hd E. exact (proj1 (to_f32_nearest n d f Hn Hd E)). Qed.
Print Assumptions C40_nearest_float.
Example C40_nearest_float_applies :
  to_f32 1 3 = Some {| f_mant := 11184811; f_exp := -25 |} /\ to_f32 (2 ^ 24 + 1) 1 = Some {| f_mant := 8388608; f_exp := 1 |} /\
  to_f32 (2 ^ 24 + 3) 1 = Some {| f_mant := 8388610; f_exp := 1 |} /\ to_f32 1 (2 ^ 140) = Some {| f_mant := 512; f_exp := -149 |} /\ to_f32 (2 ^ 128) 1 = None.
Proof. repeat split; reflexivity. Qed.

(* The duration reported is the number of ticks divided by the period: within 2^-22 of it, and 2 ns. *)
Theorem C40_duration_divides : forall period first second t, (0 < f_mant period)%Z -> first <= second -> second < 2 ^ 64 ->
  gpu_time period first second = Some t ->
  (Qabs (as_q t - as_q (second - first) / value period) <= as_q (second - first) / value period * (1 # 2 ^ 22) + 2)%Q.
Proof.
  intros period first second t Hp H1 H2. unfold gpu_time. rewrite ticks by assumption. unfold as_q. set (n := Z.of_N (second - first)).
  assert (Hn : (0 <= n)%Z) by (subst n; lia).
  destruct (f32_of n) as [x|] eqn:X; [|discriminate]. destruct (f32_div x period) as [q|] eqn:D; [|discriminate].
  destruct (u64_of_f32 q) as [z|] eqn:U; [|discriminate]. intro E. injection E as <-.
  destruct (f32_of_nearest n x Hn X) as [_ Mx]. destruct (f32_div_nearest x period q Mx Hp D) as [_ Mq].
  destruct (u64_of_f32_floor q z Mq U) as (F1 & F2 & Z0). rewrite Z2N.id by exact Z0.
  pose proof (f32_of_relative n x Hn X) as R1. unfold within in R1. pose proof (f32_div_relative x period q Mx Hp D) as R2.
  rewrite inject_Z_plus in F2. change (inject_Z 1) with 1%Q in F2.
  assert (Pp : (0 < value period)%Q) by (unfold value; apply Qmult_lt_0_compat; [apply inj_pos, Hp|apply two_pos]).
  assert (R3 : (Qabs (value x / value period - inject_Z n / value period) <= inject_Z n / value period * (1 # 16777216))%Q).
  { setoid_replace (value x / value period - inject_Z n / value period)%Q with ((value x - inject_Z n) * / value period)%Q by (field; apply nz_of_pos, Pp).
    rewrite Qabs_Qmult, (Qabs_pos (/ value period)) by (apply Qlt_le_weak, Qinv_lt_0_compat, Pp).
    setoid_replace (inject_Z n / value period * (1 # 16777216))%Q with ((1 # 2 ^ 24) * inject_Z n * / value period)%Q by (change (1 # 2 ^ 24)%Q with (1 # 16777216)%Q; unfold Qdiv; ring).
    apply Qmult_le_compat_r; [exact R1|apply Qlt_le_weak, Qinv_lt_0_compat, Pp]. }
  assert (R4 : (0 <= inject_Z n / value period)%Q).
  { apply Qle_shift_div_l; [exact Pp|]. rewrite Qmult_0_l. apply inj_nonneg, Hn. }
  change (1 # 2 ^ 24)%Q with (1 # 16777216)%Q in *. change (1 # 2 ^ 22)%Q with (1 # 4194304)%Q.
  set (y := (inject_Z n / value period)%Q) in *. set (v := (value x / value period)%Q) in *. clear R1.
  apply Qabs_diff_Qle_condition in R3. apply Qabs_diff_Qle_condition in R2. apply Qabs_diff_Qle_condition. lra.
Qed.
Print Assumptions C40_duration_divides.
Example C40_duration_divides_applies : gpu_time {| f_mant := 13653333; f_exp := -18 |} 1000 5001000 = Some 96000.
Proof. vm_compute. reflexivity. Qed.

(** C40, the duration: with a timestamp period of 2 ns or more, the duration reported for 4 ticks or more is not even two thirds of the right one. *)
Theorem C40_duration_refuted : forall period first second t, (0 < f_mant period)%Z -> (2 <= value period)%Q ->
  first + 4 <= second -> second < 2 ^ 64 -> gpu_time period first second = Some t ->
  (as_q t * 3 < expected_time period first second * 2)%Q.
Proof.
  intros period first second t Hp P2 H1 H2 G. pose proof (C40_duration_divides period first second t Hp ltac:(lia) H2 G) as B.
  unfold expected_time. fold (as_q (second - first)). unfold as_q in *. set (n := inject_Z (Z.of_N (second - first))) in *.
  assert (Hn : (4 <= n)%Q) by (subst n; change 4%Q with (inject_Z 4); rewrite <- Zle_Qle; lia).
  assert (Y : (n / value period <= n * (1 # 2))%Q).
  { apply Qle_shift_div_r; [lra|]. setoid_replace (n * (1 # 2) * value period)%Q with (n * (value period * (1 # 2)))%Q by ring.
    setoid_replace n with (n * 1)%Q at 1 by ring. apply Qmult_le_l; lra. }
  assert (W : (n * 2 <= n * value period)%Q) by (apply Qmult_le_l; lra).
  apply Qabs_diff_Qle_condition in B. change (1 # 2 ^ 22)%Q with (1 # 4194304)%Q in B. set (y := (n / value period)%Q) in *. lra.
Qed.
Print Assumptions C40_duration_refuted.
Example C40_duration_refuted_applies : gpu_time {| f_mant := 2; f_exp := 0 |} 100 110 = Some 5 /\ (expected_time {| f_mant := 2; f_exp := 0 |} 100 110 == 20)%Q.
Proof. split; reflexivity. Qed.
(* With a period of 1 ns, the duration is right below 2^24 ticks, and within 2^-24 of it unless the ticks nearly exceed 64 bits. *)
Theorem C40_duration_partial : forall period first second, (value period == 1)%Q -> first <= second -> second < 2 ^ 64 -> second - first < 2 ^ 64 - 2 ^ 39 ->
  exists t, gpu_time period first second = Some t /\ within (1 # 2 ^ 24) (as_q t) (expected_time period first second) /\
    (second - first < 2 ^ 24 -> t = second - first).
Proof.
  intros period first second P1 H1 H2 H3. unfold gpu_time, expected_time, as_q. rewrite ticks by assumption. set (n := Z.of_N (second - first)).
  assert (Hn : (0 <= n < 2 ^ 64 - 2 ^ 39)%Z) by (subst n; lia).
  assert (Hp : (0 < f_mant period)%Z).
  { destruct (Z_lt_dec 0 (f_mant period)) as [|K]; [assumption|exfalso]. assert (V : (value period <= 0)%Q).
    { unfold value. setoid_replace 0%Q with (0 * 2 ^ f_exp period)%Q by ring. apply Qmult_le_compat_r; [|apply Qlt_le_weak, two_pos].
      change 0%Q with (inject_Z 0). rewrite <- Zle_Qle. lia. }
    rewrite P1 in V. apply (Qlt_not_le 0 1); [reflexivity|exact V]. }
  destruct (f32_of_some n ltac:(lia)) as [x X]. rewrite X. destruct (f32_of_nearest n x ltac:(lia) X) as [Nx Mx].
  assert (Vx : (value x / value period == value x)%Q) by (rewrite P1; field).
  pose proof (f32_of_below n x Hn X) as Bx.
  destruct (f32_div x period) as [q|] eqn:D.
  2: { exfalso. unfold f32_div in D. destruct (Z.eqb_spec (f_mant period) 0) as [|_]; [lia|].
       pose proof (f32_div_fraction x period Hp) as F. cbv zeta in F. rewrite Vx in F.
       pose proof (pow2z_pos (f_exp x - f_exp period)). pose proof (pow2z_pos (- (f_exp x - f_exp period))).
       edestruct to_f32_some as [g G]; [| | |rewrite G in D; discriminate D]; [nia|nia|]. rewrite F. apply Qlt_le_trans with (1 := Bx). discriminate. }
  destruct (f32_div_nearest x period q Mx Hp D) as [Nq Mq].
  assert (Vq : (value q == value x)%Q) by (apply nearest_exact; [exact (proj1 Nx)|apply (nearest_eq _ _ _ _ Vx (Qeq_refl _)), Nq]).
  destruct (u64_of_f32_some q Mq ltac:(rewrite Vq; exact Bx)) as [z U]. rewrite U. exists (Z.to_N z). split; [reflexivity|].
  destruct (u64_of_f32_floor q z Mq U) as (F1 & F2 & Z0). rewrite Z2N.id by exact Z0.
  destruct (f32_of_integer n x ltac:(lia) X) as [w W]. assert (E : z = w).
  { rewrite Vq, W in F1, F2. rewrite <- Zle_Qle in F1. rewrite <- Zlt_Qlt in F2. lia. }
  subst w. split.
  - unfold within. rewrite <- W, P1, Qmult_1_r. exact (f32_of_relative n x ltac:(lia) X).
  - intro S. assert (Sn : (0 <= n < 2 ^ 24)%Z) by (subst n; change (2 ^ 24)%Z with (Z.of_N (2 ^ 24)); lia).
    pose proof (nearest_exact _ _ (small_f32 n Sn) Nx) as K. rewrite W in K. apply (proj1 (inject_Z_injective z n)) in K. rewrite K. unfold n. apply N2Z.id.
Qed.
Print Assumptions C40_duration_partial.
Example C40_duration_partial_applies :
  gpu_time {| f_mant := 8388608; f_exp := -23 |} 1000 4200 = Some 3200 /\ (value {| f_mant := 8388608; f_exp := -23 |} == 1)%Q.
Proof. split; reflexivity. Qed.
(** C40: the duration goes through a float: with a period of 1 ns, 2^24 + 1 ticks are reported as 2^24. *)
Theorem C40_rounding_refuted : exists period first second t,
  (value period == 1)%Q /\ first <= second /\ second < 2 ^ 64 /\ gpu_time period first second = Some t /\ ~ (as_q t == expected_time period first second)%Q.
Proof. exists {| f_mant := 1; f_exp := 0 |}, 5, (2 ^ 24 + 6), (2 ^ 24). split; [reflexivity|]. split; [lia|]. split; [reflexivity|]. split; [vm_compute; reflexivity|]. intro C. vm_compute in C. discriminate C. Qed.
Print Assumptions C40_rounding_refuted.
(** C40: when a counter with fewer than 40 valid bits wraps between the two timestamps, the conversion of the difference to an integer is undefined,
    whatever the timestamps, with a period of 1 ns. *)
Theorem C40_wrap_refuted : forall bits period first second, bits <= 39 -> (0 < f_mant period)%Z -> (value period == 1)%Q -> second < first -> first < 2 ^ bits ->
  gpu_time period first second = None.
Proof.
  intros bits period first second Hb Hp P1 H1 H2. assert (P : 2 ^ bits <= 2 ^ 39) by (apply N.pow_le_mono_r; lia).
  unfold gpu_time, u64. rewrite N.mod_small by lia. set (n := Z.of_N (second + 2 ^ 64 - first)).
  assert (Hn : (2 ^ 64 - 2 ^ 39 < n < 2 ^ 64)%Z) by (subst n; lia).
  destruct (f32_of n) as [x|] eqn:X; [|reflexivity]. destruct (f32_of_nearest n x ltac:(lia) X) as [Nx Mx].
  destruct (f32_div x _) as [q|] eqn:D; [|reflexivity]. destruct (f32_div_nearest x period q Mx Hp D) as [Nq Mq].
  assert (Vx0 : (value x / value period == value x)%Q) by (rewrite P1; field).
  assert (Vq : (value q == value x)%Q) by (apply nearest_exact; [exact (proj1 Nx)|apply (nearest_eq _ _ _ _ Vx0 (Qeq_refl _)), Nq]).
  destruct (u64_of_f32 q) as [z|] eqn:U; [exfalso|reflexivity]. destruct (u64_of_f32_floor q z Mq U) as (F1 & F2 & Z0).
  assert (B : (z < 2 ^ 64)%Z). { unfold u64_of_f32 in U. destruct (Z.ltb_spec (f_mant q * 2 ^ Z.max 0 (f_exp q) / 2 ^ Z.max 0 (- f_exp q)) (2 ^ 64)); [congruence|discriminate]. }
  assert (L : (value x < inject_Z (2 ^ 64))%Q). { rewrite <- Vq. apply Qlt_le_trans with (1 := F2). rewrite <- Zle_Qle. lia. }
  (* the nearest float is 2^64 *)
  destruct Nx as [(m & e & (Hm & He) & Vx) Bx].
  assert (W : is_f32 (inject_Z (2 ^ 64))) by (exists (2 ^ 23)%Z, 41%Z; split; [lia|reflexivity]).
  specialize (Bx _ W). assert (Q1 : (inject_Z (2 ^ 64 - 2 ^ 39) < inject_Z n)%Q) by (rewrite <- Zlt_Qlt; lia). assert (Q2 : (inject_Z n < inject_Z (2 ^ 64))%Q) by (rewrite <- Zlt_Qlt; lia).
  assert (T : (value x <= inject_Z (2 ^ 64 - 2 ^ 40))%Q).
  { rewrite Vx in *. destruct (Z_le_dec e 40) as [E|E].
    - apply Qle_trans with (inject_Z (2 ^ 24 - 1) * 2 ^ 40)%Q; [|discriminate]. apply Qle_trans with (inject_Z (2 ^ 24 - 1) * 2 ^ e)%Q.
      + apply Qmult_le_compat_r; [rewrite <- Zle_Qle; lia|apply Qlt_le_weak, two_pos].
      + apply Qmult_le_l; [reflexivity|]. apply Qpower_le_compat_l; [exact E|discriminate].
    - (* a multiple of 2^41 below 2^64 *)
      assert (V2 : (inject_Z m * 2 ^ e == inject_Z (m * 2 ^ (e - 40) * 2 ^ 40))%Q).
      { rewrite !inject_Z_mult, !two_z by lia. rewrite <- Qmult_assoc, <- two_add. replace (e - 40 + 40)%Z with e by lia. reflexivity. }
      rewrite V2 in L |- *. rewrite <- Zlt_Qlt in L. rewrite <- Zle_Qle. set (k := (m * 2 ^ (e - 40))%Z) in *. clear - L. lia. }
  change (inject_Z (2 ^ 64)) with (18446744073709551616 # 1) in *. change (inject_Z (2 ^ 64 - 2 ^ 39)) with (18446743523953737728 # 1) in *.
  change (inject_Z (2 ^ 64 - 2 ^ 40)) with (18446742974197923840 # 1) in *. clear Vx Vq. 
  rewrite (Qabs_Qminus _ (18446744073709551616 # 1)), !Qabs_pos in Bx; lra.
Qed.
Print Assumptions C40_wrap_refuted.
Example C40_wrap_refuted_applies : gpu_time {| f_mant := 8388608; f_exp := -23 |} (2 ^ 36 - 100) 900 = None.
Proof. vm_compute. reflexivity. Qed.
(* The period of the first device asked is used for all of them. *)
Theorem C40_other_device_refuted : forall mine other, mine <> other -> static_period (Some other) mine <> mine.
Proof. intros mine other H. simpl. congruence. Qed.
Print Assumptions C40_other_device_refuted.
