(* Identifiers given to several threads; images shared by several threads. *)
From Verif Require Import Spec_Conc Spec_Res Proof_Conc Proof_Conc2 Proof_Conc3 Proof_Conc4 Proof_Layout Proof_Res Proof_Res4.
From Coq Require Import PeanoNat.
Local Open Scope N_scope.

Notation hist_t := (list (nat * (hcall * hresult))).
Definition id_op_of (x : nat * (hcall * hresult)) : list id_op :=
  match fst (snd x) with HCreateImageId img => [NewImage img] | HCreateViewId v => [NewView v] | _ => [] end.
Definition id_res_of (x : nat * (hcall * hresult)) : list id_result :=
  match snd (snd x) with GaveImage i => [GotImage i] | GaveView v => [GotView v] | _ => [] end.
Definition ids_of (s : N -> hcell) : idmaps := {| im_images := image_ids (s K_IMAGE_IDS); im_views := view_ids_of (s K_VIEW_IDS) |}.

Lemma id_run_app l1 : forall l2 m, id_run m (l1 ++ l2) = let (m1, x1) := id_run m l1 in let (m2, x2) := id_run m1 l2 in (m2, x1 ++ x2).
Proof.
  induction l1 as [|o l1 IH]; intros l2 m; cbn [app id_run]; [destruct (id_run m l2); reflexivity|].
  destruct (id_step m o) as [m1 x]. rewrite IH. destruct (id_run m1 l1) as [m2 x2]. destruct (id_run m2 l2); reflexivity.
Qed.

Section Ids.
Context (supply : nat -> nat -> option N).
(* The methods that give no identifier do not touch the identifiers. *)
Definition plain_result (r : hresult) : Prop := match r with GaveImage _ | GaveView _ => False | _ => True end.
Lemma alone_keeps t : forall k s log used (P : hresult -> Prop) s' log' used' r,
  (fix safe (k : hcode) : Prop := match k with Done r => P r | Acquire _ k | Release _ k | Free _ k => safe k
     | Access c w f k => (w = true -> 2 <= c) /\ forall v, safe (k v) | Make _ k => forall x, safe (k x) end) k ->
  alone supply t k s log used = (s', log', used', r) -> P r /\ s' K_IMAGE_IDS = s K_IMAGE_IDS /\ s' K_VIEW_IDS = s K_VIEW_IDS.
Proof.
  induction k as [r0|m k IH|m k IH|X c w f k IH|o k IH|h k IH]; intros s log used P s' log' used' r W E; cbn [alone] in E; try (eapply IH; [exact W|exact E]).
  - injection E as <- <- <- <-. auto.
  - destruct W as [Wc W]. destruct (f (s c)) as [x v]. destruct (IH v _ _ _ P _ _ _ _ (W v) E) as (A & B & C). split; [exact A|]. rewrite B, C.
    destruct w; [|auto]. specialize (Wc eq_refl). rewrite !put_other; [auto| |]; unfold K_VIEW_IDS, K_IMAGE_IDS; lia.
  - eapply IH; [apply W|exact E].
Qed.
Definition gives_ids (c : hcall) : bool := match c with HCreateImageId _ | HCreateViewId _ => true | _ => false end.
Lemma other_calls t c s log used s' log' used' r : gives_ids c = false -> alone supply t (handler_code c) s log used = (s', log', used', r) ->
  plain_result r /\ s' K_IMAGE_IDS = s K_IMAGE_IDS /\ s' K_VIEW_IDS = s K_VIEW_IDS.
Proof.
  intros G E. revert E. apply alone_keeps.
  destruct c; try discriminate G; cbn [handler_code]; unfold code_createView, code_createImage, code_createSampler, code_createQuad,
    code_destroyImage, code_destroyView, code_destroySampler, code_destroyBuffer, free, read, write;
  repeat match goal with
    | |- _ /\ _ => split
    | |- forall _, _ => intro
    | |- context [match ?x with _ => _ end] => destruct x
    | |- 2 <= _ => vm_compute; discriminate
    | |- plain_result _ => exact I
    end.
Qed.
Lemma image_call t img s log used : exists s', alone supply t (handler_code (HCreateImageId img)) s log used = (s', log, used, GaveImage (snd (createImageId (ids_of s) img))) /\
  ids_of s' = fst (createImageId (ids_of s) img).
Proof. eexists. split; reflexivity. Qed.
Lemma view_call t v s log used : exists s', alone supply t (handler_code (HCreateViewId v)) s log used = (s', log, used, GaveView (snd (createViewId (ids_of s) v))) /\
  ids_of s' = fst (createViewId (ids_of s) v).
Proof.
  cbn [handler_code]. unfold code_createViewId, createViewId, read. cbn [alone ids_of im_views im_images].
  destruct (find _ (view_ids_of (s K_VIEW_IDS))) as [[k w]|]; eexists; split; reflexivity.
Qed.
Lemma serial_ids hist s lg : serial handler_code supply empty_handler hist s lg -> id_run no_ids (flat_map id_op_of hist) = (ids_of s, flat_map id_res_of hist).
Proof.
  induction 1 as [|hist s lg t c s' log' used' r Se IH E]; [reflexivity|]. rewrite !flat_map_app, id_run_app, IH. cbn [flat_map]. rewrite !app_nil_r.
  unfold id_op_of, id_res_of. cbn [fst snd]. destruct (gives_ids c) eqn:G.
  - destruct c; try discriminate G.
    + destruct (image_call t img s (fst (lg t)) (snd (lg t))) as (s2 & E2 & I2). rewrite E2 in E. assert (Er : r = GaveImage (snd (createImageId (ids_of s) img))) by congruence. assert (Es : s' = s2) by congruence. rewrite Er, Es, I2. cbn [id_run id_step].
      destruct (createImageId (ids_of s) img) as [m' x]. reflexivity.
    + destruct (view_call t v s (fst (lg t)) (snd (lg t))) as (s2 & E2 & I2). rewrite E2 in E. assert (Er : r = GaveView (snd (createViewId (ids_of s) v))) by congruence. assert (Es : s' = s2) by congruence. rewrite Er, Es, I2. cbn [id_run id_step].
      destruct (createViewId (ids_of s) v) as [m' x]. reflexivity.
  - destruct (other_calls t c s _ _ s' log' used' r G E) as (P & A & B). assert (Ei : ids_of s' = ids_of s) by (unfold ids_of; rewrite A, B; reflexivity).
    destruct c; try discriminate G; cbn [id_run]; rewrite Ei; destruct r; try contradiction P; rewrite app_nil_r; reflexivity.
Qed.
(* A call that ended and its answer. *)
Lemma serial_answer hist s lg x : serial handler_code supply empty_handler hist s lg -> In x hist ->
  match fst (snd x) with HCreateImageId _ => exists i, snd (snd x) = GaveImage i | HCreateViewId _ => exists v, snd (snd x) = GaveView v | _ => plain_result (snd (snd x)) end.
Proof.
  induction 1 as [|hist s lg t c s' log' used' r Se IH E]; intro Hx; [destruct Hx|]. apply in_app_iff in Hx. destruct Hx as [Hx | [<- | []]]; [exact (IH Hx)|]. cbn [fst snd].
  destruct (gives_ids c) eqn:G.
  - destruct c; try discriminate G.
    + destruct (image_call t img s (fst (lg t)) (snd (lg t))) as (s2 & E2 & I2). rewrite E2 in E. injection E as _ _ _ <-. eauto.
    + destruct (view_call t v s (fst (lg t)) (snd (lg t))) as (s2 & E2 & I2). rewrite E2 in E. injection E as _ _ _ <-. eauto.
  - destruct (other_calls t c s _ _ s' log' used' r G E) as (P & _). destruct c; try discriminate G; exact P.
Qed.
Lemma flat_split {X Y} (f : X -> list Y) : forall (l : list X) p x y, nth_error l p = Some x -> f x = [y] -> nth_error (flat_map f l) (length (flat_map f (firstn p l))) = Some y.
Proof.
  induction l as [|a l IH]; intros p x y H E; [destruct p; discriminate|]. destruct p as [|p]; cbn [nth_error firstn flat_map length] in *.
  - injection H as ->. rewrite E. reflexivity.
  - rewrite app_length, nth_error_app2 by lia. replace (length (f a) + length (flat_map f (firstn p l)) - length (f a))%nat with (length (flat_map f (firstn p l))) by lia. apply (IH p x y H E).
Qed.
Lemma flat_flat {X Y Z} (f : X -> list Y) (g : Y -> list Z) l : flat_map g (flat_map f l) = flat_map (fun x => flat_map g (f x)) l.
Proof. induction l as [|x l IH]; [reflexivity|]. cbn [flat_map]. rewrite flat_map_app, IH. reflexivity. Qed.
Lemma flat_same {X Y Z} (f : X -> list Y) (g : X -> list Z) l : (forall x, In x l -> length (f x) = length (g x)) -> length (flat_map f l) = length (flat_map g l).
Proof. induction l as [|x l IH]; intro H; [reflexivity|]. cbn [flat_map]. rewrite !app_length, (H x (or_introl eq_refl)), IH; [reflexivity|]. intros y Hy. apply H. right. exact Hy. Qed.
Lemma in_firstn {X} (x : X) n : forall l, In x (firstn n l) -> In x l.
Proof. induction n as [|n IH]; intros [|a l] H; try destruct H; [left; assumption|right; apply IH, H]. Qed.
Lemma flat_le {X Y} (f : X -> list Y) l : (forall x, (length (f x) <= 1)%nat) -> (length (flat_map f l) <= length l)%nat.
Proof. intro H. induction l as [|x l IH]; [apply le_n|]. cbn [flat_map length]. rewrite app_length. specialize (H x). lia. Qed.

Definition im_op (x : nat * (hcall * hresult)) : list image := match fst (snd x) with HCreateImageId img => [img] | _ => [] end.
Definition im_res (x : nat * (hcall * hresult)) : list image := match snd (snd x) with GaveImage img => [img] | _ => [] end.
Definition vw_op (x : nat * (hcall * hresult)) : list view := match fst (snd x) with HCreateViewId v => [v] | _ => [] end.
Definition vw_res (x : nat * (hcall * hresult)) : list view := match snd (snd x) with GaveView v => [v] | _ => [] end.
Lemma asked_im hist : asked_images (flat_map id_op_of hist) = flat_map im_op hist.
Proof. unfold asked_images. rewrite flat_flat. apply flat_map_ext. intros [t [c r]]. destruct c; reflexivity. Qed.
Lemma got_im hist : got_images (flat_map id_res_of hist) = flat_map im_res hist.
Proof. unfold got_images. rewrite flat_flat. apply flat_map_ext. intros [t [c r]]. destruct r; reflexivity. Qed.
Lemma asked_vw hist : asked_views (flat_map id_op_of hist) = flat_map vw_op hist.
Proof. unfold asked_views. rewrite flat_flat. apply flat_map_ext. intros [t [c r]]. destruct c; reflexivity. Qed.
Lemma got_vw hist : got_views (flat_map id_res_of hist) = flat_map vw_res hist.
Proof. unfold got_views. rewrite flat_flat. apply flat_map_ext. intros [t [c r]]. destruct r; reflexivity. Qed.
Lemma op_le hist : (length (flat_map id_op_of hist) <= length hist)%nat.
Proof. apply flat_le. intros [t [c r]]. destruct c; cbn; lia. Qed.

Lemma serial_same_place hist s lg p : serial handler_code supply empty_handler hist s lg ->
  length (flat_map im_op (firstn p hist)) = length (flat_map im_res (firstn p hist)) /\ length (flat_map vw_op (firstn p hist)) = length (flat_map vw_res (firstn p hist)).
Proof.
  intro Se. split; apply flat_same; intros x Hx; pose proof (serial_answer hist s lg x Se (in_firstn x p hist Hx)) as Q; destruct x as [t [c r]]; unfold im_op, im_res, vw_op, vw_res; cbn [fst snd] in *;
    destruct c; try (destruct Q as [? ->]; reflexivity); destruct r; try contradiction Q; reflexivity.
Qed.
Lemma place_lt {X Y} (f : X -> list Y) (l : list X) p q x y : nth_error l p = Some x -> f x = [y] -> (p < q)%nat -> (length (flat_map f (firstn p l)) < length (flat_map f (firstn q l)))%nat.
Proof.
  revert l q. induction p as [|p IH]; intros l q H E L.
  - destruct l as [|a l]; [discriminate|]. injection H as ->. destruct q as [|q]; [lia|]. cbn [firstn flat_map]. rewrite app_length, E. cbn [flat_map length]. lia.
  - destruct l as [|a l]; [discriminate|]. destruct q as [|q]; [lia|]. cbn [firstn flat_map nth_error] in *. rewrite !app_length. specialize (IH l q H E ltac:(lia)). lia.
Qed.

Lemma serial_image hist s lg p t c img : serial handler_code supply empty_handler hist s lg -> N.of_nat (length hist) < 2 ^ 32 ->
  nth_error hist p = Some (t, (c, GaveImage img)) -> exists a, c = HCreateImageId a /\ same_image_data a img /\ i_id img = N.of_nat (Datatypes.S (length (flat_map im_res (firstn p hist)))).
Proof.
  intros Se B H. pose proof (serial_answer hist s lg _ Se (nth_error_In _ _ H)) as Q. cbn [fst snd] in Q.
  assert (Hc : exists a, c = HCreateImageId a) by (destruct c; try (destruct Q as [? Q]; discriminate Q); try contradiction Q; eauto).
  destruct Hc as [a ->]. exists a. split; [reflexivity|].
  pose proof (op_le hist) as Ol. destruct (id_run_spec (flat_map id_op_of hist) no_ids iinv_new) as (_ & _ & A & D & _); [unfold small; cbn; lia|].
  rewrite (serial_ids hist s lg Se) in A, D. cbn [snd] in A, D. rewrite got_im in A, D. rewrite asked_im in A, D.
  destruct (serial_same_place hist s lg p Se) as [Pl _].
  pose proof (flat_split im_res hist p _ img H eq_refl) as Hr. pose proof (flat_split im_op hist p _ a H eq_refl) as Ho. rewrite Pl in Ho.
  split; [exact (Forall2_nth _ _ _ D _ _ _ Ho Hr)|].
  set (j := length (flat_map im_res (firstn p hist))) in *.
  pose proof (map_nth_error i_id j _ Hr) as E. rewrite A in E. rewrite nth_error_map in E. destruct (nth_error (seq 1 (length (flat_map im_op hist))) j) as [q|] eqn:Eq; [|discriminate].
  cbn in E. injection E as E. rewrite <- E. f_equal. pose proof (nth_lt _ _ _ Eq) as Hj. rewrite seq_length in Hj. apply nth_error_nth with (d := O) in Eq. rewrite seq_nth in Eq by exact Hj. lia.
Qed.
Lemma serial_image_ids hist s lg p t c img p' t' c' img' : serial handler_code supply empty_handler hist s lg -> N.of_nat (length hist) < 2 ^ 32 ->
  nth_error hist p = Some (t, (c, GaveImage img)) -> nth_error hist p' = Some (t', (c', GaveImage img')) -> p <> p' -> i_id img <> i_id img'.
Proof.
  intros Se B H H' Ne. destruct (serial_image hist s lg p t c img Se B H) as (a & _ & _ & E). destruct (serial_image hist s lg p' t' c' img' Se B H') as (a' & _ & _ & E').
  rewrite E, E'. destruct (Nat.lt_trichotomy p p') as [L | [L | L]]; [|contradiction|].
  - pose proof (place_lt im_res hist p p' _ _ H eq_refl L). lia.
  - pose proof (place_lt im_res hist p' p _ _ H' eq_refl L). lia.
Qed.
Lemma serial_view hist s lg p t c g : serial handler_code supply empty_handler hist s lg -> N.of_nat (length hist) < 2 ^ 32 ->
  nth_error hist p = Some (t, (c, GaveView g)) -> exists v, c = HCreateViewId v /\ same_description v g.
Proof.
  intros Se B H. pose proof (serial_answer hist s lg _ Se (nth_error_In _ _ H)) as Q. cbn [fst snd] in Q.
  assert (Hc : exists v, c = HCreateViewId v) by (destruct c; try (destruct Q as [? Q]; discriminate Q); try contradiction Q; eauto).
  destruct Hc as [v ->]. exists v. split; [reflexivity|].
  pose proof (op_le hist) as Ol. destruct (id_run_spec (flat_map id_op_of hist) no_ids iinv_new) as (_ & _ & _ & _ & D); [unfold small; cbn; lia|].
  rewrite (serial_ids hist s lg Se) in D. cbn [snd] in D. rewrite got_vw, asked_vw in D.
  destruct (serial_same_place hist s lg p Se) as [_ Pl].
  pose proof (flat_split vw_res hist p _ g H eq_refl) as Hr. pose proof (flat_split vw_op hist p _ v H eq_refl) as Ho. rewrite Pl in Ho.
  apply (Forall2_nth _ _ _ D _ _ _ Ho Hr).
Qed.
Lemma serial_view_ids hist s lg p t v g p' t' v' g' : serial handler_code supply empty_handler hist s lg -> N.of_nat (length hist) < 2 ^ 32 ->
  nth_error hist p = Some (t, (HCreateViewId v, GaveView g)) -> nth_error hist p' = Some (t', (HCreateViewId v', GaveView g')) ->
  (v_id g = v_id g' <-> same_description v v') /\ (v_id g = v_id g' -> g = g').
Proof.
  intros Se B H H'. pose proof (op_le hist) as Ol. destruct (serial_same_place hist s lg p Se) as [_ Pl]. destruct (serial_same_place hist s lg p' Se) as [_ Pl'].
  pose proof (flat_split vw_res hist p _ g H eq_refl) as Hr. pose proof (flat_split vw_op hist p _ v H eq_refl) as Ho. rewrite Pl in Ho.
  pose proof (flat_split vw_res hist p' _ g' H' eq_refl) as Hr'. pose proof (flat_split vw_op hist p' _ v' H' eq_refl) as Ho'. rewrite Pl' in Ho'.
  rewrite <- asked_vw in Ho, Ho'. rewrite <- got_vw in Hr, Hr'.
  pose proof (serial_ids hist s lg Se) as I. assert (I2 : snd (id_run no_ids (flat_map id_op_of hist)) = flat_map id_res_of hist) by (rewrite I; reflexivity).
  rewrite <- I2 in Hr at 1. rewrite <- I2 in Hr' at 1. 
  apply (view_ids (flat_map id_op_of hist)) with (i := length (flat_map vw_res (firstn p hist))) (j := length (flat_map vw_res (firstn p' hist))); try assumption. lia.
Qed.
End Ids.

(* From threads to a history. *)
Lemma threads_serial client supply n sched M l : run handler_code client supply sched (start empty_handler n) = (M, l) ->
  exists hist s lg, serial handler_code supply empty_handler hist s lg /\ (length hist <= begun l)%nat /\
    (forall t i r, nth_error (results_of t l) i = Some r -> exists c p, nth_error hist p = Some (t, (c, r)) /\ length (of_thread t (firstn p hist)) = i /\ nth_error (calls_of t l) i = Some c) /\
    (quiet M -> (forall c, s c = mc_cells M c) /\ (forall t th, nth_error (mc_threads M) t = Some th -> fst (lg t) = th_log th) /\ (forall t, nth_error (mc_threads M) t = None -> fst (lg t) = [])).
Proof.
  intro E. destruct (run_simulates handler_code client supply handler_guard handler_obeys sched _ _ (related_start handler_code supply handler_guard empty_handler n)) as (asched & Q).
  rewrite E in Q. pose proof (start_serial handler_code client supply empty_handler n asched) as S. destruct (arun handler_code client supply asched (astart empty_handler n)) as [A l'] eqn:EA.
  destruct Q as [-> R]. destruct S as (hist & lg & Se & Bk & Lg). exists hist, (am_cells A), lg. split; [exact Se|]. split; [destruct Bk as (_ & _ & Bb); lia|]. split.
  - intros t i r H. apply (book_result A l hist t i r Bk H).
  - intro Qt. destruct (quiet_same handler_code supply handler_guard M A R Qt) as (C & _ & L). split; [intro c; symmetry; apply C|]. pose proof R as (Len & _). split.
    + intros t th H. destruct (nth_error (am_threads A) t) as [ath|] eqn:Ha; [|apply nth_error_None in Ha; apply nth_lt in H; lia]. rewrite (Lg t ath Ha). cbn [fst].
      pose proof (map_nth_error th_log t _ H) as X. rewrite L, (map_nth_error at_log t _ Ha) in X. injection X as ->. reflexivity.
    + intros t H. clear - Se H Len Bk.
      assert (Hn : of_thread t hist = []). { destruct Bk as (_ & Bn & _). apply Bn. apply nth_error_None. apply nth_error_None in H. lia. }
      clear Bk. induction Se as [|hist s lg u c s' log' used' r Se IH Ea]; [reflexivity|]. rewrite thread_app in Hn. apply app_eq_nil in Hn. destruct Hn as [Hn1 Hn2].
      unfold put_log. destruct (Nat.eqb_spec u t) as [Hq|Hq]; [|apply IH, Hn1]. subst u. cbn [of_thread flat_map fst snd] in Hn2. rewrite Nat.eqb_refl in Hn2. discriminate Hn2.
Qed.
