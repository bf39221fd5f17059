(* Histories of a holder of render passes. *)
From Verif Require Import Spec_Flight Spec_Sync Proof_Layout Proof_Record Proof_Device Proof_Device2 Proof_Device3 Proof_Sync Proof_Target Proof_Target2 Proof_Target3 Proof_Flight.
From Coq Require Import PeanoNat Permutation.
Local Open Scope N_scope.

Record sound (n : nat) (f : flight) : Prop := {
  so_lives : lives (fl_target f);
  so_len : length (tg_passes (fl_target f)) = n;
  so_events : target_events (fl_log f) = tg_log (fl_target f);
  so_safe : flight_safe (fl_log f);
  so_here : fl_gone f = false }.
Lemma new_sound size n : sound n (new_flight size n).
Proof.
  constructor; [apply new_lives|cbn; apply repeat_length|reflexivity| |reflexivity].
  split; intros; destruct l1; discriminate.
Qed.
Lemma emit_flight f l : fl_log (fl_emit f l) = fl_log f ++ l. Proof. reflexivity. Qed.
Lemma sound_emit n f x : sound n f -> (x = GReset \/ x = GWaited \/ (x = GSubmit /\ forall h, In h (in_buffer (fl_log f)) -> In h (live (fl_target f)))) -> sound n (fl_emit f [x]).
Proof.
  intros [L N E S G] H. constructor; cbn [fl_emit fl_target fl_log]; try assumption.
  - rewrite events_app, E. destruct H as [ -> | [ -> | [ -> _ ] ] ]; cbn; apply app_nil_r.
  - apply safe_snoc; [exact S|intros own y h ->; destruct H as [H|[H|[H _]]]; discriminate|]. intros h -> Hh. destruct H as [H|[H|[_ H]]]; [discriminate|discriminate|].
    rewrite E. apply live_alive; [exact L|apply H, Hh].
Qed.
Lemma use_sound n own f u : sound n f -> (index_of u < n)%nat ->
  (reuses (fl_target f) (index_of u) (us_ctx u) = false -> forall h, In h (live_of (pass_data (fl_target f) (index_of u))) -> ~ In h (in_flight (fl_log f))) ->
  let f' := fl_use own f u in
  sound n f' /\ in_flight (fl_log f') = in_flight (fl_log f) /\
  in_buffer (fl_log f') = in_buffer (fl_log f) ++ (if own then [rd_renderPass (pass_data (fl_target f') (index_of u)); rd_framebuffer (pass_data (fl_target f') (index_of u))] else []) /\
  rd_renderPass (pass_data (fl_target f') (index_of u)) <> 0 /\ rd_framebuffer (pass_data (fl_target f') (index_of u)) <> 0.
Proof.
  intros [L N E S G] Hi Hd f'. assert (Hi' : (index_of u < length (tg_passes (fl_target f)))%nat) by (rewrite N; exact Hi).
  destruct (use_recorded _ u L Hi') as [O C Nw (l1 & l2 & a & cl & Log & F1 & R1 & B2 & K1)].
  destruct (lives_use _ u L Hi') as [L' N']. set (t := fl_target f) in *. set (t' := use_target t u) in *. set (i := index_of u) in *.
  assert (Ev : new_events t t' = l1 ++ l2 ++ [TBegin (rd_renderPass (pass_data t' i)) (rd_framebuffer (pass_data t' i)) a cl; TEnd]).
  { unfold new_events. rewrite Log, skipn_app, skipn_all, Nat.sub_diag. reflexivity. }
  assert (Q1 : forall x, In x (l1 ++ l2) -> (forall r g b c, x <> TBegin r g b c) /\ forall h, In h (destroyed_by x) -> ~ In h (in_flight (fl_log f))).
  { intros x Hx. apply in_app_or in Hx. destruct Hx as [Hx|Hx].
    - destruct (reuses t i (us_ctx u)) eqn:Er; subst l1; [destruct Hx|]. split; [apply (cleanup_no_begin _ _ Hx)|]. intros h Hh. apply (Hd eq_refl). eapply cleanup_in; eassumption.
    - destruct (B2 x Hx) as [D B]. split; [exact B|]. rewrite D. intros h []. }
  assert (Lf : fl_log f' = (fl_log f ++ map (GTarget own) (l1 ++ l2)) ++ map (GTarget own) [TBegin (rd_renderPass (pass_data t' i)) (rd_framebuffer (pass_data t' i)) a cl; TEnd]).
  { unfold f', fl_use. cbn [fl_log]. fold t t'. rewrite Ev, !map_app, !app_assoc. reflexivity. }
  destruct (quiet_flight own (l1 ++ l2) (fl_log f) (or_intror (fun x Hx => proj1 (Q1 x Hx)))) as [QA QB].
  assert (Fl : in_flight (fl_log f') = in_flight (fl_log f) /\ in_buffer (fl_log f') = in_buffer (fl_log f) ++ (if own then [rd_renderPass (pass_data t' i); rd_framebuffer (pass_data t' i)] else [])).
  { rewrite Lf. unfold in_flight at 1, in_buffer at 1. rewrite flight_app. cbn [map fold_left]. rewrite QA, QB. destruct own; cbn; [auto|rewrite app_nil_r; auto]. }
  split; [|split; [apply Fl|split; [apply Fl|auto]]].
  constructor; [exact L'|change (length (tg_passes t') = n); rewrite N'; exact N| | |exact G].
  - unfold f', fl_use. cbn [fl_log fl_target]. fold t t'. rewrite events_app, E, events_map. rewrite Ev, Log. reflexivity.
  - rewrite Lf. cbn [map]. replace ((fl_log f ++ map (GTarget own) (l1 ++ l2)) ++ [GTarget own (TBegin (rd_renderPass (pass_data t' i)) (rd_framebuffer (pass_data t' i)) a cl); GTarget own TEnd])
      with (((fl_log f ++ map (GTarget own) (l1 ++ l2)) ++ [GTarget own (TBegin (rd_renderPass (pass_data t' i)) (rd_framebuffer (pass_data t' i)) a cl)]) ++ [GTarget own TEnd]) by (rewrite <- app_assoc; reflexivity).
    apply safe_snoc; [|intros o y h [= _ <-] []|discriminate]. apply safe_snoc; [|intros o y h [= _ <-] []|discriminate].
    apply safe_events; [exact S|right; intros x Hx; apply (Q1 x Hx)|intros x h Hx; apply (Q1 x Hx)].
Qed.

Section History.
Context (n : nat) (Ld : nat -> Prop).
Record FI (ops : list fop) (idle : bool) (f : flight) : Prop := {
  fi_sound : sound n f;
  fi_idle : idle = true -> in_flight (fl_log f) = [];
  fi_flying : in_flight (fl_log f) = [] \/ exists i c, (i < n)%nat /\ last_saved i ops = Some c /\ incl (in_flight (fl_log f)) (live_of (pass_data (fl_target f) i)) /\
                (Ld i -> reuses (fl_target f) i c = true) }.

Lemma flight_one l x : fold_left fnext (l ++ [x]) ([], []) = fnext (in_buffer l, in_flight l) x.
Proof. now rewrite flight_app. Qed.
(* record *)
Lemma record_sound f b u : sound n f -> (index_of u < n)%nat -> let f' := fl_record f b u in
  sound n f' /\ in_flight (fl_log f') = [] /\
  (if b then in_buffer (fl_log f') = [rd_renderPass (pass_data (fl_target f') (index_of u)); rd_framebuffer (pass_data (fl_target f') (index_of u))] /\
             rd_renderPass (pass_data (fl_target f') (index_of u)) <> 0 /\ rd_framebuffer (pass_data (fl_target f') (index_of u)) <> 0 /\
             fl_target f' = use_target (fl_target f) u
   else in_buffer (fl_log f') = []).
Proof.
  intros S Hi. unfold fl_record. change (fl_emit f [GWaited; GReset]) with (fl_emit (fl_emit f [GWaited]) [GReset]) || replace (fl_emit f [GWaited; GReset]) with (fl_emit (fl_emit f [GWaited]) [GReset]) by (unfold fl_emit; cbn [fl_target fl_gone fl_log]; now rewrite <- app_assoc).
  set (f1 := fl_emit (fl_emit f [GWaited]) [GReset]).
  assert (S1 : sound n f1) by (apply sound_emit; [apply sound_emit; [exact S|auto]|auto]).
  assert (E : in_flight (fl_log f1) = [] /\ in_buffer (fl_log f1) = []).
  { unfold f1. rewrite !emit_flight. unfold in_flight at 1, in_buffer at 1. rewrite flight_one. cbn [fnext fst snd]. unfold in_flight. rewrite flight_one. split; reflexivity. }
  destruct E as [E1 E2]. destruct b; cbn zeta; [|auto].
  destruct (use_sound n true f1 u S1 Hi) as (A & B & C & D & F); [intros _ h _; rewrite E1; intros []|]. rewrite B, C, E1, E2. cbn [app]. split; [exact A|]. split; [reflexivity|]. split; [reflexivity|]. split; [exact D|]. split; [exact F|]. reflexivity.
Qed.
Lemma FI_step ops idle f o :
  FI ops idle f -> (forall u, In u (uses_of o) -> (index_of u < n)%nat /\ (Ld (index_of u) -> loaded_targets (us_pass u))) ->
  (forall u, o = FlReRecord u -> last_saved (index_of u) ops = Some (us_ctx u) /\ Ld (index_of u)) ->
  (o = FlDestroy -> idle = true) ->
  if fl_gone (fl_step f o) then flight_safe (fl_log (fl_step f o))
  else FI (ops ++ [o]) (match o with FlRun _ _ => false | FlRecord _ _ | FlWait => true | _ => idle end) (fl_step f o).
Proof.
  intros [S I Fl] Hu Hr Hd. unfold fl_step. rewrite (so_here _ _ S).
  assert (Sv : forall i, last_saved i (ops ++ [o]) = save i (last_saved i ops) o) by (intro i; unfold last_saved; now rewrite fold_left_app).
  destruct o as [b u|b u|u| |]; cbn [uses_of] in Hu.
  - destruct (Hu u (or_introl eq_refl)) as [Hi Hl]. destruct (record_sound f b u S Hi) as (S' & E & _). rewrite (so_here _ _ S'). constructor; [exact S'|intros _; exact E|left; exact E].
  - destruct (Hu u (or_introl eq_refl)) as [Hi Hl]. destruct (record_sound f b u S Hi) as (S' & E & B). set (f1 := fl_record f b u) in *.
    assert (Lv : forall h, In h (in_buffer (fl_log f1)) -> In h (live_of (pass_data (fl_target f1) (index_of u)))).
    { destruct b; [|rewrite B; intros h []]. destruct B as (B1 & B2 & B3 & _). rewrite B1, live_of_two by assumption. intros h; cbn; tauto. }
    assert (S2 : sound n (fl_emit f1 [GSubmit])).
    { apply sound_emit; [exact S'|]. right; right. split; [reflexivity|]. intros h Hh. apply (live_of_in _ (index_of u)); [rewrite (so_len _ _ S'); exact Hi|apply Lv, Hh]. }
    rewrite (so_here _ _ S2).
    assert (E2 : in_flight (fl_log (fl_emit f1 [GSubmit])) = in_buffer (fl_log f1)) by (rewrite emit_flight; unfold in_flight at 1; rewrite flight_one; cbn [fnext snd fst]; rewrite E; reflexivity).
    constructor; [exact S2|discriminate|]. destruct b; [|left; rewrite E2; exact B]. destruct B as (B1 & B2 & B3 & B4).
    right. exists (index_of u), (us_ctx u). split; [exact Hi|]. split; [rewrite Sv; unfold save; cbn [uses_of]; rewrite Nat.eqb_refl; reflexivity|].
    split; [rewrite E2; exact Lv|]. intros H. cbn [fl_emit fl_target]. rewrite B4. apply use_reuses; [apply S|rewrite (so_len _ _ S); exact Hi|right; apply Hl, H].
  - destruct (Hu u (or_introl eq_refl)) as [Hi Hl]. destruct (Hr u eq_refl) as [Hs Hj]. pose proof S as [L N _ _ _].
    assert (Hi' : (index_of u < length (tg_passes (fl_target f)))%nat) by (rewrite N; exact Hi).
    assert (D : reuses (fl_target f) (index_of u) (us_ctx u) = false -> forall h, In h (live_of (pass_data (fl_target f) (index_of u))) -> ~ In h (in_flight (fl_log f))).
    { intros R h Hh Hf. destruct Fl as [Fl|(i & c & Li & Si & Inc & Re)]; [rewrite Fl in Hf; destruct Hf|]. destruct (Nat.eq_dec i (index_of u)) as [->|Ne].
      - rewrite Hs in Si. injection Si as <-. rewrite (Re Hj) in R. discriminate.
      - apply (live_apart (fl_target f) i (index_of u) h L); [rewrite N; exact Li|exact Ne|apply Inc, Hf|exact Hh]. }
    destruct (use_sound n false f u S Hi D) as (S' & E & _). rewrite (so_here _ _ S'). constructor; [exact S'|intros H; rewrite E; apply I, H|].
    rewrite E. destruct Fl as [Fl|(i & c & Li & Si & Inc & Re)]; [left; exact Fl|right]. exists i.
    destruct (use_recorded _ u L Hi') as [O C _ _]. change (fl_target (fl_use false f u)) with (use_target (fl_target f) u).
    rewrite Sv. unfold save. cbn [uses_of]. destruct (Nat.eq_dec i (index_of u)) as [->|Ne].
    + rewrite Hs in Si. injection Si as <-. exists (us_ctx u). rewrite Nat.eqb_refl. split; [exact Hi|]. split; [reflexivity|]. pose proof (Re Hj) as R. destruct (C R) as (_ & C2 & _).
      split; [intros h Hh; apply C2, Inc, Hh|]. intros _. apply use_reuses; [exact L|exact Hi'|left; exact R].
    + exists c. assert (Nb : Nat.eqb (index_of u) i = false) by (apply Nat.eqb_neq; auto). rewrite Nb. split; [exact Li|]. split; [exact Si|].
      unfold reuses. rewrite (O i Ne). split; [exact Inc|exact Re].
  - assert (S' : sound n (fl_emit f [GWaited])) by (apply sound_emit; auto). rewrite (so_here _ _ S').
    assert (E : in_flight (fl_log (fl_emit f [GWaited])) = []) by (rewrite emit_flight; unfold in_flight; rewrite flight_one; reflexivity).
    constructor; [exact S'|intros _; exact E|left; exact E].
  - cbn [fl_gone fl_log]. pose proof S as [L N _ Sf _]. apply safe_events; [exact Sf|left; reflexivity|]. rewrite (I (Hd eq_refl)). intros x h _ _ [].
Qed.
Lemma gone_stays ops f : fl_gone f = true -> fold_left fl_step ops f = f.
Proof. intros H. induction ops as [|o ops IH]; [reflexivity|]. cbn [fold_left]. unfold fl_step at 2. rewrite H. exact IH. Qed.
Lemma FI_run rest : forall ops idle f, FI ops idle f -> settled rest idle ->
  (forall o u, In o rest -> In u (uses_of o) -> (index_of u < n)%nat /\ (Ld (index_of u) -> loaded_targets (us_pass u))) ->
  (forall before u after, rest = before ++ FlReRecord u :: after -> last_saved (index_of u) (ops ++ before) = Some (us_ctx u) /\ Ld (index_of u)) ->
  flight_safe (fl_log (fold_left fl_step rest f)).
Proof.
  induction rest as [|o rest IH]; intros ops idle f H St Hu Hr; [exact (so_safe _ _ (fi_sound _ _ _ H))|]. cbn [fold_left].
  assert (Step := FI_step ops idle f o H (fun u Hi => Hu o u (or_introl eq_refl) Hi)).
  assert (H1 : forall u, o = FlReRecord u -> last_saved (index_of u) ops = Some (us_ctx u) /\ Ld (index_of u)).
  { intros u ->. destruct (Hr [] u rest eq_refl) as [A B]. rewrite app_nil_r in A. auto. }
  assert (H2 : o = FlDestroy -> idle = true) by (intros ->; apply St).
  specialize (Step H1 H2). destruct (fl_gone (fl_step f o)) eqn:G; [rewrite gone_stays by exact G; exact Step|].
  refine (IH (ops ++ [o]) _ _ Step _ _ _).
  - destruct o; try exact St. exact (proj2 St).
  - intros o' u Ho. apply Hu. right. exact Ho.
  - intros before u after E. subst rest. destruct (Hr (o :: before) u after eq_refl) as [A B]. rewrite <- app_assoc. auto.
Qed.
End History.
Lemma fly_safe size n ops : settled ops true -> indices_fit n ops -> saved_contexts ops -> re_records_loaded ops -> flight_safe (fl_log (fly size n ops)).
Proof.
  intros St Hi Hs Hl. unfold fly.
  apply (FI_run n (fun i => exists u, In (FlReRecord u) ops /\ index_of u = i) ops [] true); [|exact St| |].
  - constructor; [apply new_sound|reflexivity|left; reflexivity].
  - intros o u Ho Hu. split; [apply (Hi o u Ho Hu)|]. intros (v & Hv & E). apply (Hl v o u Hv Ho Hu). symmetry. exact E.
  - intros before u after E. split; [apply (Hs before u after E)|]. exists u. split; [rewrite E; apply in_or_app; right; left; reflexivity|reflexivity].
Qed.

(* ---- re-recording a pass with an attachment that is only an output ---- *)
Definition done_uses (o : fop) : list use := match o with FlRecord true u | FlRun true u | FlReRecord u => [u] | _ => [] end.
Lemma fly_target ops : forall f, fl_gone f = false -> ~ In FlDestroy ops ->
  fl_target (fold_left fl_step ops f) = fold_left use_target (flat_map done_uses ops) (fl_target f) /\ fl_gone (fold_left fl_step ops f) = false.
Proof.
  induction ops as [|o ops IH]; intros f G H; [split; [reflexivity|exact G]|]. cbn [fold_left flat_map]. rewrite fold_left_app.
  assert (E : fl_target (fl_step f o) = fold_left use_target (done_uses o) (fl_target f) /\ fl_gone (fl_step f o) = false).
  { unfold fl_step. rewrite G. destruct o as [[|] u|[|] u|u| |]; try (split; [reflexivity|exact G]). exfalso. apply H. left. reflexivity. }
  destruct E as [E1 E2]. rewrite <- E1. apply IH; [exact E2|]. intros D. apply H. right. exact D.
Qed.
Lemma output_unexpected images size t u a : kept images size t -> (index_of u < length (tg_passes t))%nat -> rd_renderPass (pass_data t (index_of u)) <> 0 ->
  In a (filter isTarget images) -> isInput a = false -> known_layout (us_ctx u) (resolveView (attach_view a (index_of u)) (index_of u)) <> L_UNDEFINED ->
  reuses t (index_of u) (us_ctx u) = false.
Proof.
  intros [KD _ _ _ _] Hi R Ha Hin K. set (i := index_of u) in *. specialize (KD i Hi). destruct KD as [Z|(info & _ & _ & A3 & A4 & A5 & _)]; [contradiction|].
  destruct (reuses t i (us_ctx u)) eqn:E; [|reflexivity]. exfalso. unfold reuses in E. apply andb_prop in E as [E _]. apply andb_prop in E as [_ E]. unfold checkAttaches in E. rewrite forallb_forall in E.
  assert (X : exists x, In x (rd_entries (pass_data t i)) /\ en_view x = attach_view a i /\ ls_layout (en_input x) = L_UNDEFINED).
  { clear E. revert A3 A4 A5 Ha. generalize (rd_entries (pass_data t i)) (ri_descs info). induction (filter isTarget images) as [|b l IH]; intros es ds A3 A4 A5 Ha; [destruct Ha|].
    inversion A5 as [|? x ? es' Ev A5']; subst. inversion A3 as [|? dd ? ds' D A3']; subst. inversion A4 as [|? ? ? ? [D1 _] A4']; subst. destruct Ha as [->|Ha].
    - exists x. split; [left; reflexivity|]. split; [exact Ev|]. rewrite <- D1. apply D, Hin.
    - destruct (IH es' ds' A3' A4' A5' Ha) as (y & Hy & P). exists y. split; [right; exact Hy|exact P]. }
  destruct X as (x & Ix & Ex & Lx). specialize (E x Ix). apply SE in E. rewrite Ex in E. destruct E as [E|(E & _)]; [exact (K E)|]. apply K.
  change (ls_layout (get_view (us_ctx u) (resolveView (attach_view a i) i)) = L_UNDEFINED). rewrite E. exact Lx.
Qed.
Lemma run_flying f u : lives (fl_target f) -> (index_of u < length (tg_passes (fl_target f)))%nat -> fl_gone f = false ->
  In (rd_framebuffer (pass_data (use_target (fl_target f) u) (index_of u))) (in_flight (fl_log (fl_step f (FlRun true u)))).
Proof.
  intros L Hi G. unfold fl_step. rewrite G. unfold fl_record. set (f1 := fl_emit f [GWaited; GReset]).
  destruct (use_recorded (fl_target f) u L Hi) as [_ _ _ (l1 & l2 & a & cl & Log & F1 & R1 & B2 & K1)].
  set (i := index_of u) in *. set (t := fl_target f) in *. set (t' := use_target t u) in *.
  assert (Q : forall x, In x (l1 ++ l2) -> forall r g b c, x <> TBegin r g b c).
  { intros x Hx. apply in_app_or in Hx. destruct Hx as [Hx|Hx]; [|apply (B2 x Hx)]. destruct (reuses t i (us_ctx u)); subst l1; [destruct Hx|]. apply (cleanup_no_begin _ _ Hx). }
  assert (Ev : new_events t t' = (l1 ++ l2) ++ [TBegin (rd_renderPass (pass_data t' i)) (rd_framebuffer (pass_data t' i)) a cl; TEnd]).
  { unfold new_events. rewrite Log, skipn_app, skipn_all, Nat.sub_diag, <- app_assoc. reflexivity. }
  rewrite emit_flight. unfold in_flight. rewrite flight_one. cbn [fnext snd fst]. apply in_or_app. right.
  unfold fl_use. cbn [fl_log]. change (fl_target f1) with t. fold t'. rewrite Ev, map_app, app_assoc. unfold in_buffer. rewrite flight_app. cbn [map fold_left fnext fst]. apply in_or_app. right. right. left. reflexivity.
Qed.
Lemma output_in_flight size n images ops u a : ~ In FlDestroy ops -> indices_fit n (ops ++ [FlRun true u]) ->
  (forall o v, In o (ops ++ [FlRun true u]) -> In v (uses_of o) -> rp_images (us_pass v) = images) ->
  In a (targets (us_pass u)) -> isInput a = false -> known_layout (us_ctx u) (resolveView (attach_view a (index_of u)) (index_of u)) <> L_UNDEFINED ->
  ~ flight_safe (fl_log (fly size n (ops ++ [FlRun true u; FlReRecord u]))).
Proof.
  intros Hd Hi Hm Ha Hin K [H _]. unfold fly in H. rewrite fold_left_app in H. cbn [fold_left] in H. set (f := fold_left fl_step ops (new_flight size n)) in *.
  destruct (fly_target ops (new_flight size n) eq_refl Hd) as [Et G]. fold f in Et, G. cbn [new_flight fl_target] in Et.
  assert (Hall : forall v, In v (flat_map done_uses ops ++ [u]) -> rp_images (us_pass v) = images /\ (rp_index (us_pass v) < n)%nat).
  { intros v Hv. assert (W : exists o, In o (ops ++ [FlRun true u]) /\ In v (uses_of o)).
    { apply in_app_or in Hv. destruct Hv as [Hv|[<-|[]]]; [|exists (FlRun true u); split; [apply in_or_app; right; left; reflexivity|left; reflexivity]].
      apply in_flat_map in Hv. destruct Hv as (o & Ho & Hv). exists o. split; [apply in_or_app; left; exact Ho|]. destruct o as [[|] w|[|] w|w| |]; cbn in Hv |- *; tauto. }
    destruct W as (o & Ho & Hv'). split; [apply (Hm o v Ho Hv')|apply (Hi o v Ho Hv')]. }
  destruct (kept_used images size n (flat_map done_uses ops)) as (_ & L0 & N0); [intros v Hv; apply Hall, in_or_app; left; exact Hv|].
  destruct (kept_used images size n (flat_map done_uses ops ++ [u]) Hall) as (K1 & L1 & N1).
  unfold used in L0, N0, K1, L1, N1. rewrite fold_left_app in K1, L1, N1. cbn [fold_left] in K1, L1, N1. rewrite <- Et in *.
  destruct (Hall u) as [Eu Hu]; [apply in_or_app; right; left; reflexivity|]. fold (index_of u) in Hu.
  pose proof (run_flying f u L0 ltac:(rewrite N0; exact Hu) G) as Fy. set (f1 := fl_step f (FlRun true u)) in *.
  assert (T1 : fl_target f1 = use_target (fl_target f) u /\ fl_gone f1 = false) by (unfold f1, fl_step; rewrite G; split; [reflexivity|exact G]). destruct T1 as [T1 G1].
  set (t1 := use_target (fl_target f) u) in *. set (i := index_of u) in *.
  destruct (use_recorded (fl_target f) u L0 ltac:(rewrite N0; exact Hu)) as [_ _ _ (_ & _ & _ & _ & _ & F1 & R1 & _)]. fold t1 i in F1, R1.
  assert (Re : reuses t1 i (us_ctx u) = false).
  { apply (output_unexpected images size t1 u a K1); [rewrite N1; exact Hu|exact R1| |exact Hin|exact K]. unfold targets in Ha. rewrite Eu in Ha. exact Ha. }
  destruct (use_recorded t1 u L1 ltac:(rewrite N1; exact Hu)) as [_ _ _ (l1 & l2 & ar & cl & Log & _ & _ & _ & C1)]. fold i in Log, C1. rewrite Re in C1. subst l1.
  assert (Lg : fl_log (fl_step f1 (FlReRecord u)) = fl_log f1 ++ GTarget false (TDestroyFramebuffer (rd_framebuffer (pass_data t1 i))) ::
    map (GTarget false) ((if N.eqb (rd_renderPass (pass_data t1 i)) 0 then [] else [TDestroyRenderPass (rd_renderPass (pass_data t1 i))]) ++ l2 ++
       [TBegin (rd_renderPass (pass_data (use_target t1 u) i)) (rd_framebuffer (pass_data (use_target t1 u) i)) ar cl; TEnd])).
  { unfold fl_step. rewrite G1. unfold fl_use. cbn [fl_log]. rewrite T1. f_equal. unfold new_events. rewrite Log, skipn_app, skipn_all, Nat.sub_diag. cbn [skipn app].
    unfold cleanup_events. apply N.eqb_neq in F1. rewrite F1. reflexivity. }
  exact (H _ _ _ _ _ Lg (or_introl eq_refl) Fy).
Qed.
