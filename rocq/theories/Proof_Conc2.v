(* Executions: every schedule. *)
From Verif Require Import Spec_Conc Proof_Conc.
From Coq Require Import PeanoNat.
Local Open Scope N_scope.

Section Runs.
Context {cell call result : Type}.
Notation Code := (code cell result).
Notation Machine := (machine cell result).
Context (body : call -> Code) (client : nat -> list result -> option call) (supply : nat -> nat -> option N) (guard : N -> N).
Context (Bodies : forall c, wl guard [] true (body c)).
Notation Related := (related body supply guard).

Lemma arun_app l1 : forall l2 (A : amachine cell call result), arun body client supply (l1 ++ l2) A =
  let (A1, x1) := arun body client supply l1 A in let (A2, x2) := arun body client supply l2 A1 in (A2, x1 ++ x2).
Proof.
  induction l1 as [|t l1 IH]; intros l2 A; cbn [app arun]; [destruct (arun body client supply l2 A); reflexivity|].
  destruct (astep body client supply t A) as [[A1 x]|]; [|apply IH]. rewrite IH.
  destruct (arun body client supply l1 A1) as [A2 x2]. destruct (arun body client supply l2 A2) as [A3 x3]. rewrite app_assoc. reflexivity.
Qed.
Lemma related_start s n : Related (start s n) (astart s n).
Proof.
  split; [cbn; rewrite !repeat_length; reflexivity|]. split; [|split; [reflexivity|discriminate]].
  intros t th ath H1 H2. apply nth_error_In, repeat_spec in H1. apply nth_error_In, repeat_spec in H2. subst. split; [|reflexivity].
  apply lk_idle; try reflexivity. discriminate.
Qed.
Lemma run_simulates sched : forall (M : Machine) A, Related M A -> exists asched, let (M', l) := run body client supply sched M in
  let (A', l') := arun body client supply asched A in l' = l /\ Related M' A'.
Proof.
  induction sched as [|t sched IH]; intros M A R; [exists []; cbn; auto|]. cbn [run]. destruct (step body client supply t M) as [[M1 l1]|] eqn:E; [|apply IH, R].
  destruct (step_simulates body client supply guard Bodies M A t M1 l1 R E) as (s1 & A1 & E1 & R1). destruct (IH M1 A1 R1) as (s2 & Q). exists (s1 ++ s2). rewrite arun_app, E1.
  destruct (run body client supply sched M1) as [M2 l2]. destruct (arun body client supply s2 A1) as [A2 x2]. destruct Q as [-> R2]. auto.
Qed.
Lemma related_run s n sched : exists A, Related (fst (run body client supply sched (start s n))) A.
Proof.
  destruct (run_simulates sched (start s n) (astart s n) (related_start s n)) as (a & Q). destruct (run body client supply sched (start s n)) as [M l]. destruct (arun body client supply a (astart s n)) as [A l'].
  exists A. apply Q.
Qed.

Lemma related_owner M A t th k c w : Related M A -> nth_error (mc_threads M) t = Some th -> th_code th = Some k -> next_access k = Some (c, w) -> mc_owner M (guard c) = Some t.
Proof.
  intros (Len & T & _) H E N. destruct (nth_error (am_threads A) t) as [ath|] eqn:Ha; [|apply nth_error_None in Ha; apply nth_lt in H; lia].
  destruct (T t th ath H Ha) as [L _]. destruct k as [| | |X c' w' f k| |]; try discriminate. injection N as -> ->.
  destruct L as [E'|? HH k' E' P W D I G|? HH k' E' P W D I Rr Ss]; [congruence| |]; injection (eq_trans (eq_sym E) E') as <-; cbn [wl] in W; apply I, W.
Qed.
Lemma no_race M A : Related M A -> ~ race M.
Proof.
  intros R (t1 & t2 & th1 & th2 & k1 & k2 & c & w1 & w2 & Ne & H1 & E1 & N1 & H2 & E2 & N2 & _).
  pose proof (related_owner M A t1 th1 k1 c w1 R H1 E1 N1) as O1. pose proof (related_owner M A t2 th2 k2 c w2 R H2 E2 N2) as O2. congruence.
Qed.

Definition waited (th : thread cell result) : N := match th_code th with Some (Acquire m _) => m | _ => 0 end.
Lemma no_deadlock M A : Related M A -> (forall t, step body client supply t M = None) ->
  forall t th, nth_error (mc_threads M) t = Some th -> th_code th = None /\ client t (th_results th) = None.
Proof.
  intros R S. pose proof R as (Len & T & _ & B).
  assert (Bk : forall t th k, nth_error (mc_threads M) t = Some th -> th_code th = Some k -> exists m k' u, k = Acquire m k' /\ mc_owner M m = Some u).
  { intros t th k H E. specialize (S t). unfold step in S. rewrite H, E in S. destruct k as [r|m k|m k|X c w f k|o k|h k]; try discriminate.
    - destruct (mc_owner M m) as [u|] eqn:O; [|discriminate]. exists m, k, u. auto.
    - destruct (f (mc_cells M c)). discriminate. }
  assert (No : forall n m t th k, nth_error (mc_threads M) t = Some th -> th_code th = Some (Acquire m k) ->
    (forall th, In th (mc_threads M) -> waited th < m + N.of_nat n) -> False).
  { induction n as [|n IH]; intros m t th k H E Hb.
    - specialize (Hb th (nth_error_In _ _ H)). unfold waited in Hb. rewrite E in Hb. lia.
    - destruct (Bk t th _ H E) as (m' & k' & u & Em & O). injection Em as <- <-.
      pose proof (B m u O) as Hu. destruct (nth_error (mc_threads M) u) as [thu|] eqn:Hthu; [|apply nth_error_None in Hthu; lia].
      destruct (nth_error (am_threads A) u) as [athu|] eqn:Ha; [|apply nth_error_None in Ha; lia].
      destruct (T u thu athu Hthu Ha) as [L _]. destruct L as [E' P Lg U N|? HH k' E' P W D I G|? HH k' E' P W D I Rr Ss].
      + exact (N m O).
      + destruct (Bk u thu k' Hthu E') as (m2 & k2 & u2 & Em & O2). subst k'. cbn [wl] in W. destruct W as (_ & Lt & _). pose proof (Lt m (proj1 (I m) O)).
        apply (IH m2 u thu k2 Hthu E'). intros x Hx. specialize (Hb x Hx). lia.
      + destruct (Bk u thu k' Hthu E') as (m2 & k2 & u2 & Em & O2). subst k'. cbn [wl] in W. destruct W as (W & _). discriminate W. }
  intros t th H. destruct (th_code th) as [k|] eqn:E.
  - exfalso. destruct (Bk t th k H E) as (m & k' & u & -> & O).
    assert (Mx : exists bd, forall x, In x (mc_threads M) -> waited x < bd).
    { clear. induction (mc_threads M) as [|x l [bd Hb]]; [exists 0; intros x []|]. exists (N.max bd (waited x + 1)). intros y [<-|Hy]; [lia|]. specialize (Hb y Hy). lia. }
    destruct Mx as [bd Hb]. apply (No (N.to_nat bd) m t th k' H E). intros x Hx. specialize (Hb x Hx). lia.
  - split; [reflexivity|]. specialize (S t). unfold step in S. rewrite H, E in S. destruct (client t (th_results th)); [discriminate|reflexivity].
Qed.
Lemma quiet_same M A : Related M A -> quiet M ->
  (forall c, mc_cells M c = am_cells A c) /\ map th_results (mc_threads M) = map at_results (am_threads A) /\ map th_log (mc_threads M) = map at_log (am_threads A).
Proof.
  intros R Q. pose proof R as (Len & T & C & B).
  assert (Id : forall t th ath, nth_error (mc_threads M) t = Some th -> nth_error (am_threads A) t = Some ath -> th_results th = at_results ath /\ th_log th = at_log ath /\ forall m, mc_owner M m <> Some t).
  { intros t th ath H Ha. destruct (T t th ath H Ha) as [L Rs]. specialize (Q th (nth_error_In _ _ H)). destruct L as [E P Lg U N|? HH k' E|? HH k' E]; try congruence. auto. }
  split; [|split].
  - intro c. apply C. destruct (mc_owner M (guard c)) as [u|] eqn:O; [exfalso|reflexivity]. pose proof (B _ _ O) as Hu.
    destruct (nth_error (mc_threads M) u) as [thu|] eqn:Hthu; [|apply nth_error_None in Hthu; lia]. destruct (nth_error (am_threads A) u) as [athu|] eqn:Ha; [|apply nth_error_None in Ha; lia].
    destruct (Id u thu athu Hthu Ha) as (_ & _ & N). exact (N _ O).
  - apply nth_ext with (d := []) (d' := []); [rewrite !map_length; exact Len|]. intros n Hn. rewrite map_length in Hn.
    destruct (nth_error (mc_threads M) n) as [th|] eqn:H; [|apply nth_error_None in H; lia]. destruct (nth_error (am_threads A) n) as [ath|] eqn:Ha; [|apply nth_error_None in Ha; lia].
    rewrite (nth_error_nth (map th_results (mc_threads M)) n [] (map_nth_error th_results n _ H)), (nth_error_nth (map at_results (am_threads A)) n [] (map_nth_error at_results n _ Ha)). apply (Id n th ath H Ha).
  - apply nth_ext with (d := []) (d' := []); [rewrite !map_length; exact Len|]. intros n Hn. rewrite map_length in Hn.
    destruct (nth_error (mc_threads M) n) as [th|] eqn:H; [|apply nth_error_None in H; lia]. destruct (nth_error (am_threads A) n) as [ath|] eqn:Ha; [|apply nth_error_None in Ha; lia].
    rewrite (nth_error_nth (map th_log (mc_threads M)) n [] (map_nth_error th_log n _ H)), (nth_error_nth (map at_log (am_threads A)) n [] (map_nth_error at_log n _ Ha)). apply (Id n th ath H Ha).
Qed.
End Runs.

(* The methods of the handler obey the discipline. *)
Definition handler_guard (c : N) : N :=
  if orb (N.eqb c K_IMAGE_IDS) (N.eqb c K_IMAGES) then M_IMAGES else if orb (N.eqb c K_VIEW_IDS) (N.eqb c K_VIEWS) then M_VIEWS
  else if N.eqb c K_SAMPLERS then M_SAMPLERS else M_BUFFERS.
Ltac obey := repeat first
  [ progress cbn [wl read write remove]
  | match goal with
    | |- _ /\ _ => split
    | |- forall _, _ => intro
    | |- wl _ _ _ (match ?x with _ => _ end) => destruct x
    | |- wl _ _ _ (if ?x then _ else _) => destruct x
    | |- In _ _ => vm_compute; tauto
    | H : In _ [] |- _ => destruct H
    | H : In _ [_] |- _ => destruct H as [<-|[]]; reflexivity
    end
  | reflexivity ].
Lemma handler_obeys c : wl handler_guard [] true (handler_code c).
Proof.
  destruct c; cbn [handler_code]; unfold code_createImageId, code_createViewId, code_createView, code_createImage, code_createSampler, code_createQuad,
    code_destroyImage, code_destroyView, code_destroySampler, code_destroyBuffer, free; obey.
Qed.
