(* A method of the handler alone does what the sequential model says. *)
From Verif Require Import Spec_Conc Proof_Conc Proof_Conc2 Proof_Layout.
From Coq Require Import PeanoNat.
Local Open Scope N_scope.

Lemma mput_mput {V} k (a b : V) m : mput k b (mput k a m) = mput k b m.
Proof.
  induction m as [|[k' v'] m IH]; cbn [mput]; [rewrite N.eqb_refl; reflexivity|].
  destruct (N.eqb k k') eqn:E; cbn [mput]; [rewrite N.eqb_refl; reflexivity|]. destruct (N.ltb k k') eqn:L; cbn [mput]; [rewrite N.eqb_refl; reflexivity|].
  rewrite E, L, IH. reflexivity.
Qed.
Definition cells_eq (s : N -> hcell) (m : idmaps) (h : rhandler) : Prop := forall k, k <= K_BUFFERS -> s k = cells_of m h k.
Lemma six k : k <= K_BUFFERS -> k = 0 \/ k = 1 \/ k = 2 \/ k = 3 \/ k = 4 \/ k = 5. Proof. unfold K_BUFFERS. lia. Qed.

Lemma eq_at s m h : cells_eq s m h ->
  s K_IMAGE_IDS = HImageIds (im_images m) /\ s K_VIEW_IDS = HViewIds (im_views m) /\ s K_IMAGES = HImages (rh_images h) /\
  s K_VIEWS = HViews (rh_views h) /\ s K_SAMPLERS = HSamplers (rh_samplers h) /\ s K_BUFFERS = HBuffers (rh_buffers h).
Proof. intro E. repeat split; (rewrite E; [reflexivity|vm_compute; discriminate]). Qed.
(* Changing one container on both sides. *)
Lemma eq_ids s m h x : cells_eq s m h -> cells_eq (put_cell s K_IMAGE_IDS (HImageIds x)) {| im_images := x; im_views := im_views m |} h.
Proof. intros E k Hk. destruct (six k Hk) as [-> | [-> | [-> | [-> | [-> | ->]]]]]; try reflexivity; apply E, Hk. Qed.
Lemma eq_vids s m h x : cells_eq s m h -> cells_eq (put_cell s K_VIEW_IDS (HViewIds x)) {| im_images := im_images m; im_views := x |} h.
Proof. intros E k Hk. destruct (six k Hk) as [-> | [-> | [-> | [-> | [-> | ->]]]]]; try reflexivity; apply E, Hk. Qed.
Lemma eq_images s m h h' x : cells_eq s m h -> rh_images h' = x -> rh_views h' = rh_views h -> rh_samplers h' = rh_samplers h -> rh_buffers h' = rh_buffers h ->
  cells_eq (put_cell s K_IMAGES (HImages x)) m h'.
Proof. intros E <- E2 E3 E4 k Hk. destruct (six k Hk) as [-> | [-> | [-> | [-> | [-> | ->]]]]]; unfold cells_of; cbn -[N.le] in *; try reflexivity; rewrite ?E2, ?E3, ?E4; apply (E _ Hk). Qed.
Lemma eq_views s m h h' x : cells_eq s m h -> rh_views h' = x -> rh_images h' = rh_images h -> rh_samplers h' = rh_samplers h -> rh_buffers h' = rh_buffers h ->
  cells_eq (put_cell s K_VIEWS (HViews x)) m h'.
Proof. intros E <- E2 E3 E4 k Hk. destruct (six k Hk) as [-> | [-> | [-> | [-> | [-> | ->]]]]]; unfold cells_of; cbn -[N.le] in *; try reflexivity; rewrite ?E2, ?E3, ?E4; apply (E _ Hk). Qed.
Lemma eq_samplers s m h h' x : cells_eq s m h -> rh_samplers h' = x -> rh_images h' = rh_images h -> rh_views h' = rh_views h -> rh_buffers h' = rh_buffers h ->
  cells_eq (put_cell s K_SAMPLERS (HSamplers x)) m h'.
Proof. intros E <- E2 E3 E4 k Hk. destruct (six k Hk) as [-> | [-> | [-> | [-> | [-> | ->]]]]]; unfold cells_of; cbn -[N.le] in *; try reflexivity; rewrite ?E2, ?E3, ?E4; apply (E _ Hk). Qed.
Lemma eq_buffers s m h h' x : cells_eq s m h -> rh_buffers h' = x -> rh_images h' = rh_images h -> rh_views h' = rh_views h -> rh_samplers h' = rh_samplers h ->
  cells_eq (put_cell s K_BUFFERS (HBuffers x)) m h'.
Proof. intros E <- E2 E3 E4 k Hk. destruct (six k Hk) as [-> | [-> | [-> | [-> | [-> | ->]]]]]; unfold cells_of; cbn -[N.le] in *; try reflexivity; rewrite ?E2, ?E3, ?E4; apply (E _ Hk). Qed.

Section Alone.
Context (supply : nat -> nat -> option N) (t : nat).
(* The driver gives the handles of the sequential model. *)
Definition follows (h : rhandler) (used : nat) : Prop := forall j, supply t (used + j)%nat = Some (rh_next h + N.of_nat j).
(* What was done from h to h', from (log, used) to (log', used'). *)
Definition did (h h' : rhandler) (log log' : list event) (used used' : nat) : Prop :=
  exists new, rh_log h' = rh_log h ++ new /\ log' = log ++ new /\ N.of_nat used' + rh_next h = N.of_nat used + rh_next h'.
Lemma did_none h log used : did h h log log used used. Proof. exists []. rewrite !app_nil_r. auto. Qed.
Lemma did_make h o log used : did h (fst (vk_create h o)) log (log ++ [Created o (rh_next h)]) used (Datatypes.S used).
Proof. exists [Created o (rh_next h)]. cbn. repeat split. lia. Qed.
Lemma did_trans h1 h2 h3 l1 l2 l3 u1 u2 u3 : did h1 h2 l1 l2 u1 u2 -> did h2 h3 l2 l3 u2 u3 -> did h1 h3 l1 l3 u1 u3.
Proof. intros (n & A & B & C) (n' & A' & B' & C'). exists (n ++ n'). rewrite A', A, B', B, <- !app_assoc. repeat split. lia. Qed.
Lemma did_ext h h' h'' log log' used used' : did h h' log log' used used' -> rh_log h'' = rh_log h' -> rh_next h'' = rh_next h' -> did h h'' log log' used used'.
Proof. intros (n & A & B & C) E1 E2. exists n. rewrite E1, E2. auto. Qed.
Lemma follows_now h used : follows h used -> supply t used = Some (rh_next h).
Proof. intro F. specialize (F 0%nat). rewrite Nat.add_0_r, N.add_0_r in F. exact F. Qed.
Lemma follows_make h o used : follows h used -> follows (fst (vk_create h o)) (Datatypes.S used).
Proof. intros F j. specialize (F (Datatypes.S j)). cbn. rewrite Nat.add_succ_r in F. rewrite F. f_equal. lia. Qed.
Lemma follows_ext h h' used : follows h used -> rh_next h' = rh_next h -> follows h' used.
Proof. intros F E j. rewrite E. apply F. Qed.

Notation ends k s log used m h r := (exists s' log' used', alone supply t k s log used = (s', log', used', r) /\ cells_eq s' m h).

(* createImage followed by anything. *)
Lemma alone_createImage device img k throws s log used m h : cells_eq s m h -> follows h used ->
  let '(h', (vk, created)) := rh_createImage h device img in
  exists s' log' used', alone supply t (code_createImage device img k throws) s log used = alone supply t (k vk created) s' log' used' /\
    cells_eq s' m h' /\ did h h' log log' used used' /\ follows h' used' /\ rh_views h' = rh_views h.
Proof.
  intros E F. destruct (eq_at s m h E) as (_ & _ & Ei & _). unfold rh_createImage, code_createImage. cbn [alone]. rewrite Ei. cbn [images_of].
  destruct (mfind img (rh_images h)) as [[vk mem]|] eqn:Hf; cbn [fst alone].
  - exists (put_cell s K_IMAGES (HImages (rh_images h))), log, used. split; [reflexivity|]. split; [|split; [apply did_none|split; [exact F|reflexivity]]]. apply (eq_images s m h); auto.
  - rewrite (follows_now h used F). cbn [made]. unfold write. cbn [alone]. rewrite put_same. cbn [images_of].
    destruct device; cbn [alone].
    + pose proof (follows_make h (OImage img) used F) as F1. rewrite (follows_now _ _ F1). cbn [made]. cbn [alone]. rewrite put_same. cbn [images_of].
      set (h1 := fst (vk_create h (OImage img))) in *.
      pose proof (did_trans _ _ _ _ _ _ _ _ _ (did_make h (OImage img) log used) (did_make h1 (OImageMemory img) (log ++ [Created (OImage img) (rh_next h)]) (Datatypes.S used))) as D.
      pose proof (follows_make h1 (OImageMemory img) _ F1) as F2.
      eexists _, _, _. split; [reflexivity|]. split; [|split; [eapply did_ext; [exact D|reflexivity|reflexivity]|split; [eapply follows_ext; [exact F2|reflexivity]|reflexivity]]].
      intros d Hd. destruct (six d Hd) as [-> | [-> | [-> | [-> | [-> | ->]]]]]; try (apply (E _ Hd)). cbn. rewrite !mput_mput. reflexivity.
    + pose proof (follows_make h (OImage img) used F) as F1.
      eexists _, _, _. split; [reflexivity|]. split; [|split; [eapply did_ext; [apply did_make|reflexivity|reflexivity]|split; [eapply follows_ext; [exact F1|reflexivity]|reflexivity]]].
      intros d Hd. destruct (six d Hd) as [-> | [-> | [-> | [-> | [-> | ->]]]]]; try (apply (E _ Hd)). cbn. rewrite !mput_mput. reflexivity.
Qed.
Lemma alone_free handle k s log used h : exists log' , alone supply t (free handle k) s log used = alone supply t k s log' used /\ did h (vk_destroy h handle) log log' used used.
Proof.
  unfold free, vk_destroy. destruct (N.eqb handle 0); [exists log; split; [reflexivity|apply did_none]|]. exists (log ++ [Destroyed handle]). split; [reflexivity|]. exists [Destroyed handle]. auto.
Qed.

Lemma alone_sequential c s log used m h : cells_eq s m h -> follows h used ->
  let '(m', h', r) := sequential m h c in
  let '(s', log', used', r') := alone supply t (handler_code c) s log used in
  r' = r /\ cells_eq s' m' h' /\ did h h' log log' used used'.
Proof.
  intros E F. destruct (eq_at s m h E) as (Ei & Ev & EI & EV & ES & EB).
  destruct c as [img|v|device img|device v img|d|device q|img|v|sm|b]; cbn [sequential handler_code].
  - unfold createImageId, code_createImageId, read, write. cbn [alone]. rewrite !Ei. cbn [image_ids alone]. split; [reflexivity|]. split; [|apply did_none].
    apply (eq_ids s m h), E.
  - unfold createViewId, code_createViewId, read, write. cbn [alone]. rewrite Ev. cbn [view_ids_of].
    destruct (find _ (im_views m)) as [[k w]|] eqn:Hf; cbn [alone]; [split; [reflexivity|]; split; [exact E|apply did_none]|].
    rewrite !Ev. cbn [view_ids_of alone]. split; [reflexivity|]. split; [|apply did_none]. apply (eq_vids s m h), E.
  - pose proof (alone_createImage device img (fun vk created => Done (Gave vk created)) (Done Threw) s log used m h E F) as Q.
    destruct (rh_createImage h device img) as [h' [vk created]]. destruct Q as (s' & log' & used' & -> & A & B & _). cbn [alone]. auto.
  - unfold rh_createImageView, code_createView. cbn [alone]. rewrite EV. cbn [views_of].
    destruct (mfind v (rh_views h)) as [vk|] eqn:Hf; cbn [alone].
    { split; [reflexivity|]. split; [|apply did_none]. apply (eq_views s m h); auto. }
    set (h0 := set_rviews h (mput v 0 (rh_views h))).
    assert (E0 : cells_eq (put_cell s K_VIEWS (HViews (mput v 0 (rh_views h)))) m h0) by (apply (eq_views s m h); auto).
    assert (F0 : follows h0 used) by (apply (follows_ext h); auto).
    match goal with |- context [code_createImage device img ?k ?th] => pose proof (alone_createImage device img k th _ log used m h0 E0 F0) as Q end.
    assert (Q' : rh_createImage h0 device img = (set_rviews (fst (rh_createImage h device img)) (mput v 0 (rh_views h)), snd (rh_createImage h device img))).
    { unfold rh_createImage, h0. cbn [rh_images set_rviews]. destruct (mfind img (rh_images h)) as [[vk mem]|]; [reflexivity|]. destruct device; reflexivity. }
    rewrite Q' in Q. destruct (rh_createImage h device img) as [h1 [vk1 cr1]] eqn:E1. cbn [fst snd] in Q.
    destruct Q as (s' & log' & used' & -> & A & B & C & D). cbn [alone]. rewrite (follows_now _ _ C). cbn [made]. unfold write. cbn [alone].
    assert (Hv : rh_views h1 = rh_views h).
    { unfold rh_createImage in E1. destruct (mfind img (rh_images h)) as [[x y]|]; [injection E1 as <- _ _; reflexivity|]. destruct device; injection E1 as <- _ _; reflexivity. }
    cbn [set_rviews rh_next]. split; [reflexivity|]. split.
    + destruct (eq_at _ _ _ A) as (_ & _ & _ & EV' & _). rewrite EV'. cbn [views_of set_rviews rh_views]. rewrite mput_mput.
      apply (eq_views s' m (set_rviews h1 (mput v 0 (rh_views h)))); try assumption; try reflexivity. cbn. rewrite Hv. reflexivity.
    + eapply did_ext; [eapply (did_trans h h1); [|apply did_make]|reflexivity|reflexivity].
      destruct B as (n & B1 & B2 & B3). exists n. auto.
  - unfold rh_createSampler, code_createSampler, write. cbn [alone]. rewrite (follows_now _ _ F). cbn [made alone]. rewrite ES. cbn [samplers_of alone vk_create].
    split; [reflexivity|]. split; [apply (eq_samplers s m h); auto|]. eapply did_ext; [apply did_make|reflexivity|reflexivity].
  - unfold rh_createQuad, code_createQuad, write. cbn [alone]. rewrite (follows_now _ _ F). cbn [made alone]. cbn [vk_create].
    destruct device; cbn [alone].
    + pose proof (follows_make h (OQuad q) used F) as F1. rewrite (follows_now _ _ F1). cbn [made alone]. rewrite EB. cbn [buffers_of alone].
      split; [reflexivity|]. split; [apply (eq_buffers s m h); auto|]. eapply did_ext; [eapply did_trans; [apply did_make|apply did_make]|reflexivity|reflexivity].
    + rewrite EB. cbn [buffers_of alone]. split; [reflexivity|]. split; [apply (eq_buffers s m h); auto|]. eapply did_ext; [apply did_make|reflexivity|reflexivity].
  - unfold rh_destroyImage, code_destroyImage, read, write. cbn [alone]. rewrite EI. cbn [images_of].
    destruct (mfind img (rh_images h)) as [[vk mem]|]; cbn [alone]; [|split; [reflexivity|]; split; [exact E|apply did_none]].
    match goal with |- context [alone supply t (free mem ?k) s log used] => destruct (alone_free mem k s log used h) as (l1 & -> & D1) end.
    match goal with |- context [alone supply t (free vk ?k) s l1 used] => destruct (alone_free vk k s l1 used (vk_destroy h mem)) as (l2 & -> & D2) end.
    cbn [alone]. rewrite EI. cbn [images_of alone]. split; [reflexivity|]. split; [|eapply did_ext; [eapply did_trans; eassumption|reflexivity|reflexivity]].
    unfold vk_destroy. destruct (N.eqb mem 0), (N.eqb vk 0); apply (eq_images s m h); auto.
  - unfold rh_destroyImageView, code_destroyView, read, write. cbn [alone]. rewrite EV. cbn [views_of].
    destruct (mfind v (rh_views h)) as [vk|]; cbn [alone]; [|split; [reflexivity|]; split; [exact E|apply did_none]].
    match goal with |- context [alone supply t (free vk ?k) s log used] => destruct (alone_free vk k s log used h) as (l1 & -> & D1) end.
    cbn [alone]. rewrite EV. cbn [views_of alone]. split; [reflexivity|]. split; [|eapply did_ext; [eassumption|reflexivity|reflexivity]].
    unfold vk_destroy. destruct (N.eqb vk 0); apply (eq_views s m h); auto.
  - unfold rh_destroySampler, code_destroySampler, read, write. cbn [alone]. rewrite ES. cbn [samplers_of].
    destruct (mfind sm (rh_samplers h)) as [vk|]; cbn [alone]; [|split; [reflexivity|]; split; [exact E|apply did_none]].
    match goal with |- context [alone supply t (free sm ?k) s log used] => destruct (alone_free sm k s log used h) as (l1 & -> & D1) end.
    cbn [alone]. rewrite ES. cbn [samplers_of alone]. split; [reflexivity|]. split; [|eapply did_ext; [eassumption|reflexivity|reflexivity]].
    unfold vk_destroy. destruct (N.eqb sm 0); apply (eq_samplers s m h); auto.
  - unfold rh_destroyVertexBuffer, code_destroyBuffer, read, write. cbn [alone]. rewrite EB. cbn [buffers_of].
    destruct (mfind b (rh_buffers h)) as [mem|]; cbn [alone]; [|split; [reflexivity|]; split; [exact E|apply did_none]].
    match goal with |- context [alone supply t (free mem ?k) s log used] => destruct (alone_free mem k s log used h) as (l1 & -> & D1) end.
    match goal with |- context [alone supply t (free b ?k) s l1 used] => destruct (alone_free b k s l1 used (vk_destroy h mem)) as (l2 & -> & D2) end.
    cbn [alone]. rewrite EB. cbn [buffers_of alone]. split; [reflexivity|]. split; [|eapply did_ext; [eapply did_trans; eassumption|reflexivity|reflexivity]].
    unfold vk_destroy. destruct (N.eqb mem 0), (N.eqb b 0); apply (eq_buffers s m h); auto.
Qed.
End Alone.
