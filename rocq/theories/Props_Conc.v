(* C78-C82: several threads. *)
From Verif Require Import Spec_Conc Spec_Res Proof_Conc Proof_Conc2 Proof_Conc3 Proof_Conc4 Proof_Conc5 Proof_Conc6 Proof_Layout Proof_Res.
From Coq Require Import PeanoNat.
Local Open Scope N_scope.

(* Threads whose calls are lists. *)
Definition calls_in (scripts : list (list hcall)) : nat -> list hresult -> option hcall := fun t results => nth_error (nth t scripts []) (length results).
(* A driver that gives to each thread its own handles. *)
Definition sure_driver : nat -> nat -> option N := fun t n => Some (N.of_nat (100 * (t + 1) + n)).
Definition turns (n : nat) (l : list nat) : list nat := concat (repeat l n).

(* ------------------------------------------------------------------ C78 *)
(* Whatever the threads call, whatever the driver answers, whatever the schedule: what the threads see (when their calls begin and end, and the
   results) is what they see when each call does the whole of its effect at one instant between its beginning and its end; and when no call
   is in progress, the handler and the driver are in the state this leads to. *)
Theorem C78_calls_take_effect_at_once : forall client supply n sched, exists asched,
  let (M, l) := run handler_code client supply sched (start empty_handler n) in
  let (A, l') := arun handler_code client supply asched (astart empty_handler n) in
  l' = l /\
  (quiet M -> (forall c, mc_cells M c = am_cells A c) /\ map th_results (mc_threads M) = map at_results (am_threads A) /\ map th_log (mc_threads M) = map at_log (am_threads A)).
Proof.
  intros client supply n sched.
  destruct (run_simulates handler_code client supply handler_guard handler_obeys sched _ _ (related_start handler_code supply handler_guard empty_handler n)) as (asched & Q). exists asched.
  destruct (run handler_code client supply sched (start empty_handler n)) as [M l]. destruct (arun handler_code client supply asched (astart empty_handler n)) as [A l'].
  destruct Q as [-> R]. split; [reflexivity|]. apply (quiet_same handler_code supply handler_guard M A R).
Qed.
Print Assumptions C78_calls_take_effect_at_once.

(* No two threads are ever about to access the same container, one of them to write it. *)
Theorem C78_no_race : forall client supply n sched, ~ race (fst (run handler_code client supply sched (start empty_handler n))).
Proof.
  intros client supply n sched. destruct (related_run handler_code client supply handler_guard handler_obeys empty_handler n sched) as [A R]. exact (no_race _ _ _ _ A R).
Qed.
Print Assumptions C78_no_race.

(* If no thread can make a step, every thread has ended its last call and has nothing to call. *)
Theorem C78_no_deadlock : forall client supply n sched,
  let M := fst (run handler_code client supply sched (start empty_handler n)) in
  (forall t, step handler_code client supply t M = None) -> forall t th, nth_error (mc_threads M) t = Some th -> th_code th = None /\ client t (th_results th) = None.
Proof.
  intros client supply n sched M. destruct (related_run handler_code client supply handler_guard handler_obeys empty_handler n sched) as [A R]. exact (no_deadlock _ _ _ _ M A R).
Qed.
Print Assumptions C78_no_deadlock.

(* The whole effect of a call, with a driver that gives the handles in order, is the one of the sequential model of the handler (Model_Res.v), about
   which C30, C31, C32, C55 and C56 are stated. *)
Theorem C78_alone_is_the_sequential_model : forall supply t c s log used m h,
  (forall k, k <= K_BUFFERS -> s k = cells_of m h k) -> (forall j, supply t (used + j)%nat = Some (rh_next h + N.of_nat j)) ->
  let '(m', h', r) := sequential m h c in
  let '(s', log', used', r') := alone supply t (handler_code c) s log used in
  r' = r /\ (forall k, k <= K_BUFFERS -> s' k = cells_of m' h' k) /\
  exists new, rh_log h' = rh_log h ++ new /\ log' = log ++ new /\ N.of_nat used' + rh_next h = N.of_nat used + rh_next h'.
Proof. intros supply t c s log used m h E F. exact (alone_sequential supply t c s log used m h E F). Qed.
Print Assumptions C78_alone_is_the_sequential_model.

(* two threads, that ask a view and its image at the same time: the first one to lock the views makes everything *)
Definition both : list (list hcall) := [[HCreateView true 7 5; HCreateImage true 5]; [HCreateImage true 5; HCreateView true 7 5]].
Example C78_applies :
  let (M, l) := run handler_code (calls_in both) sure_driver (turns 30 [0; 1]%nat) (start empty_handler 2) in
  quiet M /\ results_of 0 l = [Gave 100 true; Gave 200 false] /\ results_of 1 l = [Gave 200 true; Gave 100 false] /\
  driver_calls M = [Created (OView 7) 100; Created (OImage 5) 200; Created (OImageMemory 5) 201].
Proof. vm_compute. split; [intros th [<- | [<- | []]]; reflexivity|]. split; [reflexivity|]. split; reflexivity. Qed.
(* and one of the threads did wait for the other *)
Example C78_waits : exists sched, let M := fst (run handler_code (calls_in both) sure_driver sched (start empty_handler 2)) in
  step handler_code (calls_in both) sure_driver 1 M = None /\ ~ quiet M /\ (exists k, option_map th_code (nth_error (mc_threads M) 1) = Some (Some (Acquire M_IMAGES k))).
Proof.
  exists (repeat 0 4 ++ [1])%nat. cbv zeta. split; [vm_compute; reflexivity|]. split.
  - intro Q. specialize (Q (nth 1 (mc_threads (fst (run handler_code (calls_in both) sure_driver (repeat 0%nat 4 ++ [1%nat]) (start empty_handler 2)))) idle_thread)).
    assert (I : In (nth 1 (mc_threads (fst (run handler_code (calls_in both) sure_driver (repeat 0%nat 4 ++ [1%nat]) (start empty_handler 2)))) idle_thread)
      (mc_threads (fst (run handler_code (calls_in both) sure_driver (repeat 0%nat 4 ++ [1%nat]) (start empty_handler 2))))) by (apply nth_In; vm_compute; lia).
    specialize (Q I). vm_compute in Q. discriminate Q.
  - eexists. vm_compute. reflexivity.
Qed.
Example C78_sequential_applies : let h := new_rhandler in (forall k, k <= K_BUFFERS -> empty_handler k = cells_of no_ids h k) /\
  (forall j, (fun _ n => Some (N.of_nat n + rh_next h)) 0%nat (0 + j)%nat = Some (rh_next h + N.of_nat j)).
Proof. cbv zeta. split; [reflexivity|]. intro j. cbn [Nat.add]. f_equal. lia. Qed.

(* ------------------------------------------------------------------ C79 *)
(* The identifiers given to the images, by whatever threads, are all different, and the image given is the one described. *)
Theorem C79_image_ids : forall client supply n sched M l, run handler_code client supply sched (start empty_handler n) = (M, l) -> N.of_nat (begun l) < 2 ^ 32 ->
  (forall t i img, nth_error (results_of t l) i = Some (GaveImage img) -> exists asked, nth_error (calls_of t l) i = Some (HCreateImageId asked) /\ same_image_data asked img /\
     1 <= i_id img <= N.of_nat (begun l)) /\
  (forall t i img t' i' img', nth_error (results_of t l) i = Some (GaveImage img) -> nth_error (results_of t' l) i' = Some (GaveImage img') -> (t, i) <> (t', i') -> i_id img <> i_id img').
Proof.
  intros client supply n sched M l E B. destruct (threads_serial client supply n sched M l E) as (hist & s & lg & Se & Le & Rs & _). assert (Bh : N.of_nat (length hist) < 2 ^ 32) by lia. split.
  - intros t i img H. destruct (Rs t i _ H) as (c & p & P & _ & C). destruct (serial_image supply hist s lg p t c img Se Bh P) as (a & -> & D & I). exists a. split; [exact C|]. split; [exact D|].
    rewrite I. pose proof (flat_le im_res (firstn p hist)) as F. rewrite firstn_length in F. pose proof (nth_lt _ _ _ P).
    assert (length (flat_map im_res (firstn p hist)) <= Nat.min p (length hist))%nat by (apply F; intros [? [? []]]; cbn; lia). lia.
  - intros t i img t' i' img' H H' Ne. destruct (Rs t i _ H) as (c & p & P & L & _). destruct (Rs t' i' _ H') as (c' & p' & P' & L' & _).
    apply (serial_image_ids supply hist s lg p t c img p' t' c' img' Se Bh P P'). intros <-. apply Ne. rewrite P in P'. injection P' as <- _ _. congruence.
Qed.
Print Assumptions C79_image_ids.

(* Two threads get the same view if, and only if, they describe the same view. *)
Theorem C79_view_ids : forall client supply n sched M l, run handler_code client supply sched (start empty_handler n) = (M, l) -> N.of_nat (begun l) < 2 ^ 32 ->
  (forall t i g, nth_error (results_of t l) i = Some (GaveView g) -> exists v, nth_error (calls_of t l) i = Some (HCreateViewId v) /\ same_description v g) /\
  (forall t i v g t' i' v' g', nth_error (calls_of t l) i = Some (HCreateViewId v) -> nth_error (results_of t l) i = Some (GaveView g) ->
     nth_error (calls_of t' l) i' = Some (HCreateViewId v') -> nth_error (results_of t' l) i' = Some (GaveView g') ->
     (v_id g = v_id g' <-> same_description v v') /\ (v_id g = v_id g' -> g = g')).
Proof.
  intros client supply n sched M l E B. destruct (threads_serial client supply n sched M l E) as (hist & s & lg & Se & Le & Rs & _). assert (Bh : N.of_nat (length hist) < 2 ^ 32) by lia. split.
  - intros t i g H. destruct (Rs t i _ H) as (c & p & P & _ & C). destruct (serial_view supply hist s lg p t c g Se Bh P) as (v & -> & D). exists v. auto.
  - intros t i v g t' i' v' g' Hc H Hc' H'. destruct (Rs t i _ H) as (c & p & P & _ & C). destruct (Rs t' i' _ H') as (c' & p' & P' & _ & C').
    rewrite Hc in C. injection C as <-. rewrite Hc' in C'. injection C' as <-. exact (serial_view_ids supply hist s lg p t v g p' t' v' g' Se Bh P P').
Qed.
Print Assumptions C79_view_ids.

(* A call that asks an identifier and ends gives one. *)
Theorem C79_answers : forall client supply n sched M l t i c r, run handler_code client supply sched (start empty_handler n) = (M, l) ->
  nth_error (calls_of t l) i = Some c -> nth_error (results_of t l) i = Some r ->
  match c with HCreateImageId _ => exists img, r = GaveImage img | HCreateViewId _ => exists v, r = GaveView v | _ => True end.
Proof.
  intros client supply n sched M l t i c r E Hc H. destruct (threads_serial client supply n sched M l E) as (hist & s & lg & Se & Le & Rs & _).
  destruct (Rs t i _ H) as (c' & p & P & _ & C). rewrite Hc in C. injection C as <-. pose proof (serial_answer supply hist s lg _ Se (nth_error_In _ _ P)) as Q. cbn [fst snd] in Q. destruct c; auto.
Qed.
Print Assumptions C79_answers.

Definition an_image : image := {| i_id := 0; i_width := 64; i_height := 64; i_depth := 1; i_levels := 3; i_layers := 1; i_format := 37 |}.
Definition a_view (mip : N) : view := {| v_id := 0; v_image := with_image_id an_image 1; v_flags := 0; v_type := 1; v_format := 37; v_range := {| r_aspect := 1; r_mip := mip; r_levels := 1; r_layer := 0; r_layers := 1 |}; v_source := [] |}.
Definition askers : list (list hcall) := [[HCreateImageId an_image; HCreateViewId (a_view 0)]; [HCreateViewId (a_view 0); HCreateViewId (a_view 1)]; [HCreateImageId an_image]].
Example C79_applies :
  let (M, l) := run handler_code (calls_in askers) sure_driver (turns 20 [1; 0; 2]%nat) (start empty_handler 3) in
  begun l = 5%nat /\ map i_id (given_images (results_of 0 l)) = [1] /\ map i_id (given_images (results_of 2 l)) = [2] /\
  map v_id (given_views (results_of 0 l)) = [1] /\ map v_id (given_views (results_of 1 l)) = [1; 2].
Proof. vm_compute. repeat split. Qed.

(* ------------------------------------------------------------------ C80 *)
Definition never_destroyed (img : N) (l : list (label hcall hresult)) : Prop := forall t, ~ In (HDestroyImage img) (calls_of t l).
Definition driver_makes (img : N) (log : list event) : list N := flat_map (fun e => match e with Created (OImage i) h => if N.eqb i img then [h] else [] | _ => [] end) log.

Lemma hist_calls client supply n sched M l : run handler_code client supply sched (start empty_handler n) = (M, l) ->
  exists hist s lg, serial handler_code supply empty_handler hist s lg /\
    (forall t i r, nth_error (results_of t l) i = Some r -> exists c p, nth_error hist p = Some (t, (c, r)) /\ length (of_thread t (firstn p hist)) = i /\ nth_error (calls_of t l) i = Some c) /\
    (forall x, In x hist -> In (fst (snd x)) (calls_of (fst x) l)) /\
    (quiet M -> (forall t th, nth_error (mc_threads M) t = Some th -> fst (lg t) = th_log th)).
Proof.
  intro E. destruct (run_simulates handler_code client supply handler_guard handler_obeys sched _ _ (related_start handler_code supply handler_guard empty_handler n)) as (asched & Q).
  rewrite E in Q. pose proof (start_serial handler_code client supply empty_handler n asched) as S. destruct (arun handler_code client supply asched (astart empty_handler n)) as [A l'] eqn:EA.
  destruct Q as [-> R]. destruct S as (hist & lg & Se & Bk & Lg). exists hist, (am_cells A), lg. split; [exact Se|]. split; [intros t i r H; apply (book_result A l hist t i r Bk H)|]. split.
  - intros [t [c r]] Hx. cbn [fst snd]. assert (Ht : In (c, r) (of_thread t hist)) by (unfold of_thread; apply in_flat_map; exists (t, (c, r)); cbn [fst snd]; rewrite Nat.eqb_refl; split; [exact Hx|left; reflexivity]).
    destruct Bk as (Bk & Bn & _). destruct (nth_error (am_threads A) t) as [ath|] eqn:Ha; [|destruct (Bn t Ha) as (_ & _ & Z); rewrite Z in Ht; destruct Ht].
    destruct (Bk t ath Ha) as (B1 & _). rewrite B1. apply in_app_iff. left. exact (in_map fst _ _ Ht).
  - intros Qt t th H. destruct (quiet_same handler_code supply handler_guard M A R Qt) as (_ & _ & L). pose proof R as (Len & _).
    destruct (nth_error (am_threads A) t) as [ath|] eqn:Ha; [|apply nth_error_None in Ha; apply nth_lt in H; lia]. rewrite (Lg t ath Ha). cbn [fst].
    pose proof (map_nth_error th_log t _ H) as X. rewrite L, (map_nth_error at_log t _ Ha) in X. injection X as ->. reflexivity.
Qed.

(* While the image is not destroyed, and the driver does not fail, the calls that ask it, by whatever threads, all give the same handle, and at most one of
   them says it created it. *)
Theorem C80_one_handle : forall client supply n sched M l img, run handler_code client supply sched (start empty_handler n) = (M, l) -> (forall t n, supply t n <> None) -> never_destroyed img l ->
  forall t i d r t' i' d' r', nth_error (calls_of t l) i = Some (HCreateImage d img) -> nth_error (results_of t l) i = Some r ->
    nth_error (calls_of t' l) i' = Some (HCreateImage d' img) -> nth_error (results_of t' l) i' = Some r' ->
    exists vk c c', r = Gave vk c /\ r' = Gave vk c' /\ (c = true -> c' = true -> (t, i) = (t', i')).
Proof.
  intros client supply n sched M l img E Sure Nd t i d r t' i' d' r' Hc H Hc' H'. destruct (hist_calls client supply n sched M l E) as (hist & s & lg & Se & Rs & Cs & _).
  destruct (Rs t i _ H) as (c & p & P & L & C). rewrite Hc in C. injection C as <-. destruct (Rs t' i' _ H') as (c & p' & P' & L' & C'). rewrite Hc' in C'. injection C' as <-.
  assert (N0 : forall x, In x hist -> fst (snd x) <> HDestroyImage img) by (intros x Hx Ex; apply (Nd (fst x)); rewrite <- Ex; apply Cs, Hx).
  pose proof (serial_shared supply Sure img hist s lg Se N0) as Sh. unfold shared in Sh. destruct (entry img s) as [[vk mem]|].
  - destruct Sh as (_ & A & B). destruct (A _ (nth_error_In _ _ P) (N.eqb_refl img)) as [cr Er]. destruct (A _ (nth_error_In _ _ P') (N.eqb_refl img)) as [cr' Er']. cbn [fst snd] in Er, Er'.
    exists vk, cr, cr'. split; [exact Er|]. split; [exact Er'|]. intros -> ->. subst r r'.
    destruct (Nat.eq_dec p p') as [<-|Np]; [rewrite P in P'; injection P' as <- _; congruence|]. exfalso.
    assert (Two : forall p p' x y, nth_error hist p = Some x -> nth_error hist p' = Some y -> (p < p')%nat -> tell img x = true -> tell img y = true -> (2 <= length (filter (tell img) hist))%nat).
    { clear. intros p p' x y Hx Hy Lt Tx Ty. destruct (nth_error_split hist p Hx) as (l1 & l2 & -> & <-). rewrite nth_error_app2 in Hy by lia. destruct (p' - length l1)%nat as [|q] eqn:Eq; [lia|]. cbn [nth_error] in Hy.
      rewrite filter_app, app_length. cbn [filter]. rewrite Tx. cbn [length]. assert (In y (filter (tell img) l2)) by (apply filter_In; split; [exact (nth_error_In _ _ Hy)|exact Ty]).
      destruct (filter (tell img) l2); [contradiction|]. cbn [length]. lia. }
    assert (T : forall u dd, tell img (u, (HCreateImage dd img, Gave vk true)) = true) by (intros; apply N.eqb_refl).
    destruct (Nat.lt_trichotomy p p') as [Lt | [Lt | Lt]]; [|contradiction|].
    + pose proof (Two p p' _ _ P P' Lt (T _ _) (T _ _)). lia.
    + pose proof (Two p' p _ _ P' P Lt (T _ _) (T _ _)). lia.
  - destruct Sh as [_ A]. specialize (A _ (nth_error_In _ _ P)). cbn in A. rewrite N.eqb_refl in A. discriminate A.
Qed.
Print Assumptions C80_one_handle.

(* ... and when no call is in progress, the driver was asked for one image, the one given. *)
Theorem C80_one_image : forall client supply n sched M l img, run handler_code client supply sched (start empty_handler n) = (M, l) -> (forall t n, supply t n <> None) -> never_destroyed img l -> quiet M ->
  (length (driver_makes img (driver_calls M)) <= 1)%nat /\
  forall t i d r, nth_error (calls_of t l) i = Some (HCreateImage d img) -> nth_error (results_of t l) i = Some r -> exists vk c, r = Gave vk c /\ driver_makes img (driver_calls M) = [vk].
Proof.
  intros client supply n sched M l img E Sure Nd Qt. destruct (hist_calls client supply n sched M l E) as (hist & s & lg & Se & Rs & Cs & Lg). specialize (Lg Qt).
  assert (N0 : forall x, In x hist -> fst (snd x) <> HDestroyImage img) by (intros x Hx Ex; apply (Nd (fst x)); rewrite <- Ex; apply Cs, Hx).
  pose proof (serial_shared supply Sure img hist s lg Se N0) as Sh. unfold shared in Sh.
  assert (Em : driver_makes img (driver_calls M) = flat_map (fun th => makes img (th_log th)) (mc_threads M)) by (unfold driver_makes, driver_calls; apply flat_flat).
  assert (None_ : forall ths k, (forall t th, nth_error ths t = Some th -> fst (lg (k + t)%nat) = th_log th) -> (forall t, (k <= t)%nat -> makes img (fst (lg t)) = []) -> flat_map (fun th : thread hcell hresult => makes img (th_log th)) ths = []).
  { clear. induction ths as [|th ths IH]; intros k H Z; [reflexivity|]. cbn [flat_map]. rewrite <- (H 0%nat th eq_refl), Nat.add_0_r, (Z k (le_n k)). apply (IH (Datatypes.S k)).
    - intros t u Hu. rewrite <- (H (Datatypes.S t) u Hu). f_equal. f_equal. lia.
    - intros t Ht. apply Z. lia. }
  destruct (entry img s) as [[vk mem]|].
  - destruct Sh as ((t0 & A1 & A2) & A3 & A4).
    assert (One : forall ths k, (forall t th, nth_error ths t = Some th -> fst (lg (k + t)%nat) = th_log th) -> flat_map (fun th : thread hcell hresult => makes img (th_log th)) ths = if andb (Nat.leb k t0) (Nat.ltb t0 (k + length ths)) then [vk] else []).
    { clear - A1 A2 None_. induction ths as [|th ths IH]; intros k H; cbn [flat_map length].
      - destruct (Nat.leb_spec k t0); [|reflexivity]. destruct (Nat.ltb_spec t0 (k + 0)); [lia|reflexivity].
      - pose proof (H 0%nat th eq_refl) as H0. rewrite Nat.add_0_r in H0. rewrite <- H0, (IH (Datatypes.S k)) by (intros t u Hu; rewrite <- (H (Datatypes.S t) u Hu); f_equal; f_equal; lia).
        destruct (Nat.eq_dec k t0) as [->|Nk].
        + rewrite A1. destruct (Nat.leb_spec (Datatypes.S t0) t0); [lia|]. destruct (Nat.leb_spec t0 t0); [|lia]. destruct (Nat.ltb_spec t0 (t0 + Datatypes.S (length ths))); [reflexivity|lia].
        + rewrite (A2 k Nk). cbn [app]. destruct (Nat.leb_spec (Datatypes.S k) t0), (Nat.leb_spec k t0); try lia; try reflexivity.
          destruct (Nat.ltb_spec t0 (Datatypes.S k + length ths)), (Nat.ltb_spec t0 (k + Datatypes.S (length ths))); try lia; reflexivity. }
    pose proof (One (mc_threads M) 0%nat (fun t th H => Lg t th H)) as O. rewrite Em, O.
    assert (Inn : Nat.ltb t0 (length (mc_threads M)) = true).
    { apply Nat.ltb_lt. destruct (threads_serial client supply n sched M l E) as (hist2 & s2 & lg2 & _). clear hist2 s2 lg2.
      destruct (Nat.lt_ge_cases t0 (length (mc_threads M))) as [|Ge]; [assumption|]. exfalso.
      assert (Z : of_thread t0 hist = []).
      { destruct (of_thread t0 hist) as [|[c r] rest] eqn:Eo; [reflexivity|]. exfalso. assert (I : In (c, r) (of_thread t0 hist)) by (rewrite Eo; left; reflexivity).
        unfold of_thread in I. apply in_flat_map in I. destruct I as ([u [c' r']] & I1 & I2). cbn [fst snd] in I2. destruct (Nat.eqb_spec t0 u) as [<-|]; [|destruct I2]. pose proof (Cs _ I1) as Q. cbn [fst snd] in Q.
        clear - E Ge Q. unfold calls_of in Q. apply in_flat_map in Q. destruct Q as ([u x | u x] & I1 & I2); [|destruct I2]. destruct (Nat.eqb_spec t0 u) as [<-|]; [|destruct I2].
        assert (G : forall sched M0 M1 l1, run handler_code client supply sched M0 = (M1, l1) -> length (mc_threads M1) = length (mc_threads M0) /\ forall u x, In (Begins u x) l1 -> (u < length (mc_threads M0))%nat).
        { clear. induction sched as [|t sched IH]; intros M0 M1 l1 E; cbn [run] in E; [injection E as <- <-; split; [reflexivity|intros ? ? []]|].
          destruct (step handler_code client supply t M0) as [[M2 l2]|] eqn:Es; [|apply (IH M0 M1 l1 E)]. destruct (run handler_code client supply sched M2) as [M3 l3] eqn:Er. injection E as <- <-.
          destruct (IH M2 M3 l3 Er) as [L1 L2].
          assert (Ls : length (mc_threads M2) = length (mc_threads M0) /\ forall u x, In (Begins u x) l2 -> (u < length (mc_threads M0))%nat).
          { unfold step in Es. destruct (nth_error (mc_threads M0) t) as [th|] eqn:Ht; [|discriminate]. pose proof (nth_lt _ _ _ Ht) as Lt.
            assert (Lp : forall x : thread hcell hresult, length (put_thread (mc_threads M0) t x) = length (mc_threads M0)).
            { intro x. unfold put_thread. rewrite app_length, firstn_length. cbn [length]. rewrite skipn_length. lia. }
            destruct (th_code th) as [[r|m k|m k|X c w f k|o k|h k]|].
            - injection Es as <- <-. cbn [mc_threads]. rewrite Lp. split; [reflexivity|]. intros u x [Q | []]. discriminate Q.
            - destruct (mc_owner M0 m); [discriminate|]. injection Es as <- <-. cbn [mc_threads]. rewrite Lp. split; [reflexivity|intros ? ? []].
            - injection Es as <- <-. cbn [mc_threads]. rewrite Lp. split; [reflexivity|intros ? ? []].
            - destruct (f (mc_cells M0 c)). injection Es as <- <-. cbn [mc_threads]. rewrite Lp. split; [reflexivity|intros ? ? []].
            - injection Es as <- <-. cbn [mc_threads]. rewrite Lp. split; [reflexivity|intros ? ? []].
            - injection Es as <- <-. cbn [mc_threads]. rewrite Lp. split; [reflexivity|intros ? ? []].
            - destruct (client t (th_results th)) as [y|]; [|discriminate]. injection Es as <- <-. cbn [mc_threads]. rewrite Lp. split; [reflexivity|]. intros u x [Q | []]. injection Q as <- _. exact Lt. }
          destruct Ls as [Ls1 Ls2]. split; [congruence|]. intros u x I. apply in_app_iff in I. destruct I as [I|I]; [apply (Ls2 u x I)|]. rewrite <- Ls1. apply (L2 u x I). }
        destruct (G _ _ _ _ E) as [G1 G2]. specialize (G2 t0 x I1). rewrite <- G1 in G2. lia. }
      clear - Se A1 Z. assert (Zl : fst (lg t0) = []).
      { clear A1. induction Se as [|hist s lg u c s' log' used' r Se IH Ea]; [reflexivity|]. rewrite thread_app in Z. apply app_eq_nil in Z. destruct Z as [Z1 Z2].
        unfold put_log. destruct (Nat.eqb_spec u t0) as [Hq|Hq]; [|apply IH, Z1]. subst u. cbn [of_thread flat_map fst snd] in Z2. rewrite Nat.eqb_refl in Z2. discriminate Z2. }
      rewrite Zl in A1. discriminate A1. }
    cbn [Nat.leb andb Nat.add]. rewrite Inn. split; [apply le_n|]. intros t i d r Hc H. destruct (Rs t i _ H) as (c & p & P & _ & C). rewrite Hc in C. injection C as <-.
    destruct (A3 _ (nth_error_In _ _ P) (N.eqb_refl img)) as [cr Er]. exists vk, cr. auto.
  - destruct Sh as [A1 A2]. rewrite Em, (None_ (mc_threads M) 0%nat (fun t th H => Lg t th H) (fun t _ => A1 t)). split; [cbn; lia|].
    intros t i d r Hc H. destruct (Rs t i _ H) as (c & p & P & _ & C). rewrite Hc in C. injection C as <-. specialize (A2 _ (nth_error_In _ _ P)). cbn in A2. rewrite N.eqb_refl in A2. discriminate A2.
Qed.
Print Assumptions C80_one_image.

Definition sharers : list (list hcall) := [[HCreateImage true 5]; [HCreateImage true 5]; [HCreateView true 7 5; HCreateImage true 5]].
Example C80_applies :
  let (M, l) := run handler_code (calls_in sharers) sure_driver (turns 40 [0; 1; 2]%nat) (start empty_handler 3) in
  quiet M /\ never_destroyed 5 l /\ all_results l = [Gave 100 true; Gave 100 false; Gave 300 true; Gave 100 false] /\ driver_makes 5 (driver_calls M) = [100].
Proof.
  assert (Q : snd (run handler_code (calls_in sharers) sure_driver (turns 40 [0; 1; 2]%nat) (start empty_handler 3)) =
    [Begins 0 (HCreateImage true 5); Begins 1 (HCreateImage true 5); Begins 2 (HCreateView true 7 5); Ends 0 (Gave 100 true); Ends 1 (Gave 100 false); Ends 2 (Gave 300 true); Begins 2 (HCreateImage true 5); Ends 2 (Gave 100 false)]%nat) by (vm_compute; reflexivity).
  destruct (run handler_code (calls_in sharers) sure_driver (turns 40 [0; 1; 2]%nat) (start empty_handler 3)) as [M l] eqn:E. cbn [snd] in Q. subst l.
  assert (EM : M = fst (run handler_code (calls_in sharers) sure_driver (turns 40 [0; 1; 2]%nat) (start empty_handler 3))) by (rewrite E; reflexivity). clear E.
  split; [rewrite EM; vm_compute; intros th [<- | [<- | [<- | []]]]; reflexivity|]. split.
  - intros t I. unfold calls_of in I. cbn [flat_map] in I. rewrite !app_nil_l in I. repeat (apply in_app_iff in I; destruct I as [I|I]; [destruct (Nat.eqb _ _); [destruct I as [I | []]; discriminate I|destruct I]|]). destruct I.
  - split; [reflexivity|]. rewrite EM. vm_compute. reflexivity.
Qed.

(* ------------------------------------------------------------------ C81 *)
(* The driver cannot make the image: the call throws, and asking again gives a null handle, as if the image was known. *)
Definition failing_driver : nat -> nat -> option N := fun t n => match n with O => None | _ => sure_driver t n end.
Theorem C81_null_image_refuted : exists scripts, let (M, l) := run handler_code (calls_in scripts) failing_driver (turns 40 [0]%nat) (start empty_handler 1) in
  calls_of 0 l = [HCreateImage true 5; HCreateImage true 5] /\ results_of 0 l = [Threw; Gave 0 false].
Proof. exists [[HCreateImage true 5; HCreateImage true 5]]. vm_compute. split; reflexivity. Qed.
Print Assumptions C81_null_image_refuted.
(* The same for a view, and for the view of an image that could not be made. *)
Theorem C81_null_view_refuted : exists scripts, let (M, l) := run handler_code (calls_in scripts) failing_driver (turns 40 [0]%nat) (start empty_handler 1) in
  calls_of 0 l = [HCreateView true 7 5; HCreateView true 7 5; HCreateView true 8 5] /\ results_of 0 l = [Threw; Gave 0 false; Gave 101 true].
Proof. exists [[HCreateView true 7 5; HCreateView true 7 5; HCreateView true 8 5]]. vm_compute. split; reflexivity. Qed.
Print Assumptions C81_null_view_refuted.
(* The memory of an image cannot be allocated: the call throws, asking again gives an image without memory. *)
Definition no_memory : nat -> nat -> option N := fun t n => match n with 1%nat => None | _ => sure_driver t n end.
Theorem C81_image_without_memory_refuted : exists scripts, let (M, l) := run handler_code (calls_in scripts) no_memory (turns 40 [0]%nat) (start empty_handler 1) in
  results_of 0 l = [Threw; Gave 100 false] /\ driver_calls M = [Created (OImage 5) 100].
Proof. exists [[HCreateImage true 5; HCreateImage true 5]]. vm_compute. split; reflexivity. Qed.
Print Assumptions C81_image_without_memory_refuted.
(* The memory of a quad cannot be allocated: its buffer is lost, nothing in the handler knows it. *)
Theorem C81_quad_buffer_lost_refuted : exists scripts, let (M, l) := run handler_code (calls_in scripts) no_memory (turns 40 [0]%nat) (start empty_handler 1) in
  (exists q, results_of 0 l = [Threw] /\ driver_calls M = [Created (OQuad q) 100]) /\ mc_cells M K_BUFFERS = HBuffers [].
Proof. exists [[HCreateQuad true {| qc_texCoords := true; qc_invertU := false; qc_invertV := false |}]]. vm_compute. split; [eexists; split; reflexivity|reflexivity]. Qed.
Print Assumptions C81_quad_buffer_lost_refuted.

(* What does hold: a call that throws changes nothing else than the entries of the image and of the view it was asked for (and the entry of the null sampler);
   it destroys nothing; and what it created, but for the buffer of a quad, is in the handler, that will destroy it with the image. *)
Theorem C81_failed_call_partial : forall supply t c s log used s' log' used', alone supply t (handler_code c) s log used = (s', log', used', Threw) ->
  s' K_IMAGE_IDS = s K_IMAGE_IDS /\ s' K_VIEW_IDS = s K_VIEW_IDS /\ buffers_of (s' K_BUFFERS) = buffers_of (s K_BUFFERS) /\
  (forall img, (forall d, c <> HCreateImage d img) -> (forall d v, c <> HCreateView d v img) -> mfind img (images_of (s' K_IMAGES)) = mfind img (images_of (s K_IMAGES))) /\
  (forall v, (forall d img, c <> HCreateView d v img) -> mfind v (views_of (s' K_VIEWS)) = mfind v (views_of (s K_VIEWS))) /\
  (forall h, h <> 0 -> mfind h (samplers_of (s' K_SAMPLERS)) = mfind h (samplers_of (s K_SAMPLERS))) /\
  exists new, log' = log ++ new /\ forall e, In e new ->
    (exists i h mem, e = Created (OImage i) h /\ mfind i (images_of (s' K_IMAGES)) = Some (h, mem)) \/
    (exists i h vk, e = Created (OImageMemory i) h /\ mfind i (images_of (s' K_IMAGES)) = Some (vk, h)) \/ (exists q h, e = Created (OQuad q) h).
Proof.
  intros supply t c s log used s' log' used' E. destruct (throw_effect supply t c s log used s' log' used' E) as (A & B & C & D & F & G & new & L & H).
  split; [exact A|]. split; [exact B|]. split; [exact C|]. split; [|split; [|split; [exact G|]]].
  - intros img N1 N2. apply D. intro W. destruct c; try discriminate W; injection W as ->; [apply (N1 device)|apply (N2 device v)]; reflexivity.
  - intros v N1. apply F. intro W. destruct c; try discriminate W. injection W as ->. apply (N1 device img). reflexivity.
  - exists new. split; [exact L|]. intros e He. destruct (H e He) as [[(i & h & -> & mem & Q) | (i & h & -> & vk & Q)] | (q & h & ->)]; [left|right; left|right; right]; eauto 6.
Qed.
Print Assumptions C81_failed_call_partial.
(* A thread whose call fails does not hold a mutex for ever: the others go on. *)
Theorem C81_failed_call_releases_partial : forall client supply n sched t, let M := fst (run handler_code client supply sched (start empty_handler n)) in
  forall th, nth_error (mc_threads M) t = Some th -> th_code th = None -> forall m, mc_owner M m <> Some t.
Proof.
  intros client supply n sched t M th H E m. destruct (related_run handler_code client supply handler_guard handler_obeys empty_handler n sched) as [A R]. fold M in R. pose proof R as (Len & T & _).
  destruct (nth_error (am_threads A) t) as [ath|] eqn:Ha; [|apply nth_error_None in Ha; apply nth_lt in H; lia]. destruct (T t th ath H Ha) as [L _].
  destruct L as [E' P Lg U Nm|? HH k' E'|? HH k' E']; [apply Nm|congruence|congruence].
Qed.
Print Assumptions C81_failed_call_releases_partial.
Example C81_applies : exists s' log' used', alone no_memory 0 (handler_code (HCreateView true 7 5)) empty_handler [] 0 = (s', log', used', Threw) /\ log' = [Created (OImage 5) 100] /\ mfind 5 (images_of (s' K_IMAGES)) = Some (100, 0).
Proof. eexists _, _, _. split; [vm_compute; reflexivity|]. split; reflexivity. Qed.

(* ------------------------------------------------------------------ C82 *)
(* The registry of the context may be used from several threads. *)
Definition empty_registry : N -> nmap N := fun _ => [].
Lemma registry_obeys c : wl (fun _ => 0) [] true (registry_code c).
Proof. destruct c; cbn [registry_code]; [|destruct (N.eqb object 0)]; obey. Qed.
Theorem C82_registry_partial : forall client supply n sched,
  ~ race (fst (run registry_code client supply sched (start empty_registry n))) /\
  exists asched,
    let (M, l) := run registry_code client supply sched (start empty_registry n) in
    let (A, l') := arun registry_code client supply asched (astart empty_registry n) in
    l' = l /\ (quiet M -> mc_cells M 0 = am_cells A 0).
Proof.
  intros client supply n sched. split.
  - destruct (related_run registry_code client supply (fun _ => 0) registry_obeys empty_registry n sched) as [A R]. exact (no_race _ _ _ _ A R).
  - destruct (run_simulates registry_code client supply (fun _ => 0) registry_obeys sched _ _ (related_start registry_code supply (fun _ => 0) empty_registry n)) as (asched & Q). exists asched.
    destruct (run registry_code client supply sched (start empty_registry n)) as [M l]. destruct (arun registry_code client supply asched (astart empty_registry n)) as [A l'].
    destruct Q as [-> R]. split; [reflexivity|]. intro Qt. apply (quiet_same registry_code supply (fun _ => 0) M A R Qt).
Qed.
Print Assumptions C82_registry_partial.
Definition registrars : nat -> list gresult -> option gcall := fun t results => nth_error (nth t [[GRegister 5 50; GUnregister 6]; [GRegister 6 60]] []) (length results).
Example C82_registry_applies : let (M, l) := run registry_code registrars (fun _ _ => None) (turns 20 [0; 1]%nat) (start empty_registry 2) in mc_cells M 0 = [(5, 50)] /\ begun l = 3%nat.
Proof. vm_compute. split; reflexivity. Qed.

(* Two threads connect a function to a signal: the slots are not protected, and one of the functions is lost while both were told they are connected. *)
Definition connectors : nat -> list sresult -> option scall := fun t results => nth_error (nth t [[SConnect 71 1]; [SConnect 72 2]] []) (length results).
Theorem C82_signal_race_refuted : exists sched, race (fst (run signal_code connectors (fun _ _ => None) sched (start empty_signal 2))).
Proof.
  exists [0; 1; 0]%nat. exists 0%nat, 1%nat. eexists _, _, _, _, 0, true, false. split; [discriminate|]. repeat (split; [vm_compute; reflexivity|]). vm_compute; reflexivity.
Qed.
Print Assumptions C82_signal_race_refuted.
Theorem C82_signal_lost_slot_refuted : exists sched, let (M, l) := run signal_code connectors (fun _ _ => None) sched (start empty_signal 2) in
  results_of 0 l = [SConnected 1] /\ results_of 1 l = [SConnected 1] /\ mc_cells M 0 = SSlots [(1, 71)].
Proof. exists ([0; 1] ++ [0; 1] ++ turns 10 [0; 1])%nat. vm_compute. repeat split. Qed.
Print Assumptions C82_signal_lost_slot_refuted.

(* The logger: the mutex is released before the callback is used; setting it while logging is a race, and two threads that set it too. *)
Definition loggers (set_too : bool) : nat -> list lresult -> option lcall := fun t results => nth_error (nth t [[LLog]; [LSetCallback 8]; if set_too then [LSetCallback 9] else []] []) (length results).
Theorem C82_logger_race_refuted : exists sched1 sched2,
  race (fst (run logger_code (loggers false) (fun _ _ => None) sched1 (start (fun _ => 7) 2))) /\
  race (fst (run logger_code (loggers true) (fun _ _ => None) sched2 (start (fun _ => 7) 3))).
Proof.
  exists [0; 0; 0; 1; 1; 1]%nat, [1; 1; 1; 2; 2; 2]%nat. split.
  - exists 0%nat, 1%nat. eexists _, _, _, _, 0, false, true. split; [discriminate|]. repeat (split; [vm_compute; reflexivity|]). vm_compute; reflexivity.
  - exists 1%nat, 2%nat. eexists _, _, _, _, 0, true, true. split; [discriminate|]. repeat (split; [vm_compute; reflexivity|]). vm_compute; reflexivity.
Qed.
Print Assumptions C82_logger_race_refuted.
Inductive logging : code N lresult -> Prop :=
| lg_end x : logging (Done (LCalled x)) | lg_start : logging (logger_code LLog) | lg_locked : logging (Release 0 (Access 0 false (fun f => (f, f)) (fun f => Done (LCalled f))))
| lg_read : logging (Access 0 false (fun f => (f, f)) (fun f => Done (LCalled f))).
(* Logging only, or setting from one thread that is the only one to use the logger, is safe: threads that only log never race. *)
Theorem C82_logging_partial : forall client supply n f sched, (forall t results c, client t results = Some c -> c = LLog) -> ~ race (fst (run logger_code client supply sched (start (fun _ => f) n))).
Proof.
  intros client supply n f sched Only.
  assert (Inv : forall sched M, (forall th k, In th (mc_threads M) -> th_code th = Some k -> logging k) ->
    forall th k, In th (mc_threads (fst (run logger_code client supply sched M))) -> th_code th = Some k -> forall c w, next_access k = Some (c, w) -> w = false).
  { clear sched n f. induction sched as [|t sched IH]; intros M H.
    - cbn [run fst]. intros th k Hth Hk c w Hn. destruct (H th k Hth Hk) as [x | | |]; try discriminate Hn. injection Hn as _ <-. reflexivity.
    - cbn [run]. destruct (step logger_code client supply t M) as [[M1 l1]|] eqn:E; [|apply (IH M H)]. specialize (IH M1). destruct (run logger_code client supply sched M1) as [M2 l2]. cbn [fst] in *. apply IH.
      unfold step in E. destruct (nth_error (mc_threads M) t) as [th0|] eqn:H0; [|discriminate]. pose proof (nth_error_In _ _ H0) as I0.
      assert (Put : forall x th k, In th (put_thread (mc_threads M) t x) -> th_code th = Some k -> th = x \/ In th (mc_threads M)).
      { intros x th k I _. unfold put_thread in I. apply in_app_iff in I. destruct I as [I | [<- | I]]; [right; exact (in_firstn _ _ _ I)|left; reflexivity|right]. rewrite <- (firstn_skipn (Datatypes.S t) (mc_threads M)). apply in_app_iff. right. exact I. }
      destruct (th_code th0) as [k0|] eqn:K0.
      + destruct (H th0 k0 I0 K0) as [x | | |]; cbn [logger_code] in E.
        * injection E as <- <-. cbn [mc_threads mc_cells]. intros th k I K. destruct (Put _ _ _ I K) as [-> | I']; [discriminate K|exact (H th k I' K)].
        * destruct (mc_owner M 0); [discriminate|]. injection E as <- <-. cbn [mc_threads mc_cells]. intros th k I K. destruct (Put _ _ _ I K) as [-> | I']; [|exact (H th k I' K)]. injection K as <-. constructor.
        * injection E as <- <-. cbn [mc_threads mc_cells]. intros th k I K. destruct (Put _ _ _ I K) as [-> | I']; [|exact (H th k I' K)]. injection K as <-. constructor.
        * injection E as <- <-. cbn [mc_threads mc_cells]. intros th k I K. destruct (Put _ _ _ I K) as [-> | I']; [|exact (H th k I' K)]. injection K as <-. constructor.
      + destruct (client t (th_results th0)) as [x|] eqn:Ec; [|discriminate]. pose proof (Only _ _ _ Ec) as ->. injection E as <- <-. cbn [mc_threads mc_cells]. intros th k I K. destruct (Put _ _ _ I K) as [-> | I']; [|exact (H th k I' K)].
        injection K as <-. constructor. }
  intros (t1 & t2 & th1 & th2 & k1 & k2 & c & w1 & w2 & Ne & H1 & E1 & N1 & H2 & E2 & N2 & W).
  assert (St : forall th k, In th (mc_threads (@start N lresult (fun _ => f) n)) -> th_code th = Some k -> logging k).
  { intros th k I K. cbn [start mc_threads] in I. apply repeat_spec in I. subst th. discriminate K. }
  pose proof (Inv sched _ St th1 k1 (nth_error_In _ _ H1) E1 c w1 N1). pose proof (Inv sched _ St th2 k2 (nth_error_In _ _ H2) E2 c w2 N2). subst. discriminate W.
Qed.
Print Assumptions C82_logging_partial.
Example C82_logging_applies : let (M, l) := run logger_code (fun t results => match length results with O => Some LLog | _ => None end) (fun _ _ => None) (turns 6 [0; 1]%nat) (start (fun _ => 7) 2) in
  all_results l = [LCalled 7; LCalled 7].
Proof. vm_compute. reflexivity. Qed.

(* What a call does alone: the registry then knows the registered object under its name, no longer knows the unregistered one, and nothing
   else changes (no object is asked to the driver). *)
Theorem C82_registry_effect : forall supply t c s log used,
  let '(s', log', used', _) := alone supply t (registry_code c) s log used in
  log' = log /\ used' = used /\ (forall k, k <> 0 -> s' k = s k) /\
  forall o, mfind o (s' 0) = match c with
                             | GRegister x name => if N.eqb o x then Some name else mfind o (s 0)
                             | GUnregister x => if andb (N.eqb o x) (negb (N.eqb x 0)) then None else mfind o (s 0)
                             end.
Proof.
  intros supply t [x name | x] s log used.
  - cbn [registry_code alone]. split; [reflexivity|]. split; [reflexivity|]. split.
    + intros k Ne. unfold put_cell. destruct (N.eqb_spec 0 k) as [E|_]; [congruence|reflexivity].
    + intro o. unfold put_cell. cbn [N.eqb]. apply mfind_mput.
  - cbn [registry_code]. destruct (N.eqb_spec x 0) as [-> | Nx].
    + cbn [alone]. do 3 (split; [reflexivity|]). intro o. rewrite Bool.andb_false_r. reflexivity.
    + cbn [alone]. destruct (mfind x (s 0)) as [name|] eqn:F; cbn [alone].
      * do 2 (split; [reflexivity|]). split; [intros k Ne; unfold put_cell; destruct (N.eqb_spec 0 k) as [E|_]; [congruence|reflexivity]|].
        intro o. unfold put_cell. cbn [N.eqb]. rewrite mfind_merase. cbn [negb]. rewrite Bool.andb_true_r. reflexivity.
      * do 3 (split; [reflexivity|]). intro o. cbn [negb]. rewrite Bool.andb_true_r. destruct (N.eqb_spec o x) as [-> |_]; [exact F|reflexivity].
Qed.
Print Assumptions C82_registry_effect.
Example C82_registry_effect_applies :
  let s : N -> nmap N := fun _ => [(5, 50); (6, 60)] in
  let '(s', _, _, _) := alone (fun _ _ => None) 0 (registry_code (GUnregister 5)) s [] 0 in s' 0 = [(6, 60)].
Proof. vm_compute. reflexivity. Qed.

(* Connecting alone: the function is found at the index given, which was not used by another function unless the counter did collide, and the connection
   is in the list; disconnecting alone removes the index and the connection. *)
Theorem C82_signal_effect : forall supply t c s log used,
  let '(s', log', used', r) := alone supply t (signal_code c) s log used in
  log' = log /\ used' = used /\ (forall k, k <> 0 -> k <> 1 -> s' k = s k) /\
  match c with
  | SConnect f a =>
      let i := (N.of_nat (length (slots_of (s 0))) + 1) mod 2 ^ 32 in
      r = SConnected i /\ conns_of (s' 1) = a :: conns_of (s 1) /\
      (forall j, mfind j (slots_of (s' 0)) = match mfind j (slots_of (s 0)) with Some g => Some g | None => if N.eqb j i then Some f else None end)
  | SDisconnect i a =>
      r = SDisconnected /\ (forall b, In b (conns_of (s' 1)) <-> In b (conns_of (s 1)) /\ b <> a) /\
      (forall j, mfind j (slots_of (s' 0)) = if N.eqb j i then None else mfind j (slots_of (s 0)))
  end.
Proof.
  intros supply t [f a | i a] s log used.
  - cbn [signal_code alone]. do 2 (split; [reflexivity|]). split.
    { intros k N0 N1. unfold put_cell. destruct (N.eqb_spec 1 k) as [E|_]; [congruence|]. destruct (N.eqb_spec 0 k) as [E|_]; [congruence|reflexivity]. }
    cbv zeta. assert (E : u32 (u32 (N.of_nat (msize (slots_of (s 0)))) + 1) = (N.of_nat (length (slots_of (s 0))) + 1) mod 2 ^ 32).
    { unfold u32, msize. rewrite N.add_mod_idemp_l by discriminate. reflexivity. }
    rewrite E. split; [reflexivity|]. unfold put_cell. cbn [N.eqb Pos.eqb conns_of slots_of]. split; [reflexivity|]. intro j. rewrite mfind_minsert. match goal with |- context [N.eqb j ?i] => generalize i; intro n end. destruct (mfind j (slots_of (s 0))); destruct (N.eqb j n); reflexivity.
  - assert (R : forall b l, In b (remove N.eq_dec a l) <-> In b l /\ b <> a).
    { intros b l. split; [apply in_remove|]. intros [H Ne]. apply in_in_remove; assumption. }
    cbn [signal_code alone]. destruct (mfind i (slots_of (s 0))) as [g|] eqn:F; cbn [alone].
    + do 2 (split; [reflexivity|]). split.
      { intros k N0 N1. unfold put_cell. destruct (N.eqb_spec 1 k) as [E|_]; [congruence|]. destruct (N.eqb_spec 0 k) as [E|_]; [congruence|reflexivity]. }
      split; [reflexivity|]. unfold put_cell. cbn [N.eqb Pos.eqb conns_of slots_of]. split; [intro b; apply R|]. intro j. apply mfind_merase.
    + do 2 (split; [reflexivity|]). split.
      { intros k N0 N1. unfold put_cell. destruct (N.eqb_spec 1 k) as [E|_]; [congruence|reflexivity]. }
      split; [reflexivity|]. unfold put_cell. cbn [N.eqb Pos.eqb conns_of slots_of]. split; [intro b; apply R|]. intro j. destruct (N.eqb_spec j i) as [-> |_]; [exact F|reflexivity].
Qed.
Print Assumptions C82_signal_effect.
Example C82_signal_effect_applies :
  let '(s1, _, _, r1) := alone (fun _ _ => None) 0 (signal_code (SConnect 71 9)) empty_signal [] 0 in
  let '(s2, _, _, _) := alone (fun _ _ => None) 0 (signal_code (SDisconnect 1 9)) s1 [] 0 in
  r1 = SConnected 1 /\ s1 0 = SSlots [(1, 71)] /\ s1 1 = SConns [9] /\ s2 0 = SSlots [] /\ s2 1 = SConns [].
Proof. vm_compute. repeat split. Qed.

(* The executions start with a handler that holds nothing. *)
Theorem C78_starts_empty : forall k, k <= K_BUFFERS -> empty_handler k = cells_of no_ids new_rhandler k /\
  image_ids (empty_handler k) = [] /\ view_ids_of (empty_handler k) = [] /\ images_of (empty_handler k) = [] /\ views_of (empty_handler k) = [] /\ samplers_of (empty_handler k) = [] /\ buffers_of (empty_handler k) = [].
Proof.
  intros k H. assert (K : In k [0; 1; 2; 3; 4; 5]) by (unfold K_BUFFERS in H; cbn; lia).
  repeat (destruct K as [<- | K]; [vm_compute; repeat split|]). destruct K.
Qed.
Print Assumptions C78_starts_empty.
