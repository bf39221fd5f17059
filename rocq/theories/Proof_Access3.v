(* Proofs about the stages and accesses of barriers: the bodies of the passes. *)
From Verif Require Import Spec_Access Proof_Layout Proof_Record Props_Attach Proof_Access Proof_Access2.
Local Open Scope N_scope.

Lemma coherent_set_views {A} (f : A -> view) (g : A -> lstate) l : forall c, (forall x, In x l -> coherent (g x)) -> coherent_context c ->
  coherent_context (fold_left (fun c x => set_view c (f x) (g x)) l c).
Proof.
  induction l as [|x l IH]; intros c H C; [exact C|]. cbn [fold_left]. apply IH; [intros y Hy; apply H; right; exact Hy|]. apply ctx_set_state; [exact C|]. apply H. left. reflexivity.
Qed.
Definition coherent_entries (l : list entry) : Prop := forall x, In x l -> coherent (en_input x) /\ coherent (en_output x).
Lemma next_state_coherent e g c p v : coherent_graph g -> coherent_context c -> (forall a, In a (rp_images p) -> declared a) -> coherent (getNextLayoutState e g c p v).
Proof.
  intros (_ & G & _) (_ & C & _) D. unfold getNextLayoutState. cbv zeta. destruct (negb _); [apply get_coherent, C|]. destruct (negb _); [apply get_coherent, G|]. apply get_coherent, layouts_coherent, D.
Qed.
Lemma target_coherent e g p i a b : coherent_graph g -> (forall a, In a (rp_images p) -> declared a) -> coherent_context (rb_ctx b) /\ coherent_entries (rb_entries b) ->
  coherent_context (rb_ctx (target_step e g p i b a)) /\ coherent_entries (rb_entries (target_step e g p i b a)).
Proof.
  intros Hg D (C & E). unfold target_step. destruct (isTarget a); [|auto]. cbv zeta. set (v := attach_view a i). set (r := resolveView v i).
  destruct (current_coherent g (rb_ctx b) (v_image r) (v_type r) (v_range r) Hg C) as (K1 & K2 & _). destruct (getCurrentLayoutState g (rb_ctx b) (v_image r) (v_type r) (v_range r)) as [c cur]. cbn [fst snd] in K1, K2.
  pose proof (next_state_coherent e g c p r Hg K1 D) as K3. set (nx := getNextLayoutState e g c p r) in *.
  set (from := if isInput a then cur else makeLayoutState L_UNDEFINED). assert (K4 : coherent from) by (subst from; destruct (isInput a); [exact K2|apply undefined_coherent]).
  unfold addAttach. cbv beta iota zeta. destruct (orb _ _); cbn [with_depth with_colour with_ctx rb_ctx rb_entries]; (split; [apply (coherent_set_views (fun x => x) (fun _ => nx)); [intros; exact K3|exact K1]|]);
    intros x Hx; apply in_app_iff in Hx; (destruct Hx as [Hx|[<-|[]]]; [apply E, Hx|split; [exact K4|exact K3]]).
Qed.
Lemma build_coherent e g p i c : coherent_graph g -> (forall a, In a (rp_images p) -> declared a) -> coherent_context c ->
  coherent_context (rb_ctx (build_targets e g p i c)) /\ coherent_entries (rb_entries (build_targets e g p i c)).
Proof.
  intros Hg D C. unfold build_targets. set (b0 := Build_rpbuild _ _ _ _ _ _ _). assert (B : coherent_context (rb_ctx b0) /\ coherent_entries (rb_entries b0)) by (split; [exact C|intros x []]).
  clearbody b0. revert b0 B. generalize (rp_images p) as l. induction l as [|a l IH]; intros b0 B; [exact B|]. cbn [fold_left]. apply IH, target_coherent; assumption.
Qed.
Lemma set_nth_in {A} (x d : A) : forall l i j, In (nth j (set_nth i x l) d) [x; nth j l d].
Proof.
  induction l as [|y l IH]; intros [|i] [|j]; cbn; try tauto. apply (IH i j).
Qed.
Lemma initialise_coherent e g p i t c : coherent_graph g -> (forall a, In a (rp_images p) -> declared a) -> coherent_target t -> coherent_context c ->
  let '(t', c', _) := tg_initialise e g p i t c in coherent_target t' /\ coherent_context c'.
Proof.
  intros Hg D T C. unfold tg_initialise. cbv zeta. destruct (andb _ _); [auto|]. destruct (build_coherent e g p i c Hg D C) as [B1 B2]. split; [|exact B1].
  intros j x. unfold pass_data. cbn [tg_passes]. match goal with |- In x (rd_entries (nth j (set_nth i ?d' _) _)) -> _ => pose proof (set_nth_in d' new_rdata (tg_passes t) i j) as Z; set (dd := d') in * end.
  destruct Z as [Z|[Z|[]]]; rewrite <- Z; [apply B2|apply T].
Qed.
Lemma framebuffer_entries i t j : rd_entries (pass_data (fst (tg_framebuffer i t)) j) = rd_entries (pass_data t j).
Proof.
  unfold tg_framebuffer. cbv zeta. destruct (N.eqb _ 0); [|reflexivity]. cbn [fst]. unfold pass_data. cbn [tg_passes]. generalize (tg_passes t) as l. revert j.
  assert (G : forall (l : list rdata) i j dd, rd_entries dd = rd_entries (nth i l new_rdata) -> rd_entries (nth j (set_nth i dd l) new_rdata) = rd_entries (nth j l new_rdata)).
  { induction l as [|y l IH]; intros i0 [|j0] dd E; destruct i0; cbn; try reflexivity; try exact E. apply IH, E. }
  intros j l. apply G. reflexivity.
Qed.
Lemma record_coherent e g p i body t c : coherent_graph g -> (forall a, In a (rp_images p) -> declared a) -> coherent_target t -> coherent_body body -> coherent_context c ->
  let '(t', c', l) := tg_record e g p i body t c in coherent_target t' /\ steady (c', l).
Proof.
  intros Hg D T Hb C. unfold tg_record. pose proof (initialise_coherent e g p i t c Hg D T C) as I. destruct (tg_initialise e g p i t c) as [[t1 c1] m]. destruct I as [T1 C1].
  unfold tg_begin. pose proof (framebuffer_entries i t1) as F. destruct (tg_framebuffer i t1) as [t2 fb]. cbn [fst] in F. cbv beta iota zeta.
  set (c2 := fold_left _ _ c1). assert (C2 : coherent_context c2) by (subst c2; apply (coherent_set_views (fun x => resolveView (en_view x) i)); [intros x Hx; apply (T1 i x Hx)|exact C1]).
  destruct (Hb c2 i C2) as [B1 B2]. destruct (body c2 i) as [c3 l3]. cbn [fst snd] in B1, B2. unfold tg_end. cbv beta iota zeta.
  assert (E2 : forall j, rd_entries (pass_data t2 j) = rd_entries (pass_data t1 j)) by exact F.
  split; [intros j x; unfold pass_data, tg_emit; cbn [tg_passes]; fold (pass_data t2 j); rewrite E2; apply T1|].
  split.
  - cbn [fst]. apply (coherent_set_views (fun x => resolveView (en_view x) i)); [|exact B1]. intros x. unfold pass_data, tg_emit. cbn [tg_passes]. fold (pass_data t2 i). rewrite E2. intro Hx. apply (T1 i x Hx).
  - cbn [snd]. constructor; [left; exact I|]. apply Forall_app. split; [exact B2|]. constructor; [left; exact Logic.I|constructor].
Qed.
Lemma render_coherent e g p body t : coherent_graph g -> (forall a, In a (rp_images p) -> declared a) -> coherent_target t -> coherent_body body ->
  coherent_body (rp_record (render_pass e g p body t)).
Proof.
  intros Hg D T Hb c i C. cbn [render_pass rp_record]. pose proof (record_coherent e g p i body t c Hg D T Hb C) as R. destruct (tg_record e g p i body t c) as [[t' c'] l]. apply R.
Qed.

(* the transfer passes *)
Lemma copies_coherent e size final views : handled final -> coherent_body (fun c _ => image_copies e size final views c).
Proof.
  intros H c i C. enough (S : steady (image_copies e size final views c)) by exact S. clear i. revert c C.
  assert (G : forall n views c, (length views <= n)%nat -> coherent_context c -> steady (image_copies e size final views c)).
  { induction n as [|n IH]; intros [|s [|d rest]] c L C; cbn [image_copies]; try (apply steady_ret, C); [cbn in L; lia|].
    apply steady_seq; [apply steady_seq|].
    - split; [exact C|]. constructor; [left; exact I|constructor].
    - intro C1. apply steady_final; assumption.
    - intro C1. apply IH; [cbn in L; lia|exact C1]. }
  intros c C. apply (G (length views) views c (PeanoNat.Nat.le_refl _) C).
Qed.
Lemma buffer_copy_coherent src dst off size : coherent_body (fun c i => buffer_copy src dst i off size c).
Proof.
  intros c i C. enough (S : steady (buffer_copy src dst i off size c)) by exact S. unfold buffer_copy. cbv zeta.
  repeat (apply steady_seq; [|intro]); try (apply steady_emit; [repeat constructor|assumption]); (apply steady_bufferBarrier; [assumption|split; [discriminate|row]|split; [discriminate|row]]).
Qed.
Lemma plain_coherent f : (forall c i, fst (f c i) = c /\ Forall plain (snd (f c i))) -> coherent_body f.
Proof.
  intros H c i C. destruct (H c i) as [E P]. split; [rewrite E; exact C|]. apply (Forall_impl _ (P := plain)); [|exact P]. intros x Hx. left. destruct x; try exact I; destruct Hx.
Qed.
