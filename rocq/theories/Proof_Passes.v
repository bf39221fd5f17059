(* Lemmas on the transfer, compute, quad and mesh passes. *)
From Verif Require Export Spec_Passes Proof_Layout Proof_Mips Proof_Record.
From Coq Require Import Lia ZifyBool ZifyNat ZifyN.
Local Open Scope N_scope.

Lemma add3_0 p : add3 (0, 0, 0) p = p.
Proof. destruct p as [[a b] c]. reflexivity. Qed.
Lemma all_moves_app l1 l2 : all_moves (l1 ++ l2) = all_moves l1 ++ all_moves l2.
Proof. unfold all_moves. apply flat_map_app. Qed.
Lemma moves_barrier sep c im vt r i w f : all_moves (snd (memoryBarrier sep c im vt r i w f)) = [].
Proof. unfold memoryBarrier. destruct (orb _ _); reflexivity. Qed.
Lemma moves_final e c v f : all_moves (snd (final_barrier e c v f)) = [].
Proof. unfold final_barrier. destruct (N.eqb f L_UNDEFINED); [reflexivity|]. apply moves_barrier. Qed.
Lemma moves_bbarrier c b o s i1 i2 w f : all_moves (snd (bufferBarrier c b o s i1 i2 w f)) = [].
Proof. unfold bufferBarrier. destruct (orb _ _); reflexivity. Qed.
Lemma moves_seq x f : all_moves (snd (x >>> f)) = all_moves (snd x) ++ all_moves (snd (f (fst x))).
Proof. destruct x as [c l]. cbn. destruct (f c) as [c' l']. cbn. apply all_moves_app. Qed.

Lemma image_copies_moves_n e size final : forall n views c, (length views <= n)%nat ->
  all_moves (snd (image_copies e size final views c)) =
  map (fun sd => (view_texels (fst sd) (0, 0, 0) size, view_texels (snd sd) (0, 0, 0) size)) (pairs_of views).
Proof.
  induction n; intros [|s [|d views]] c H; cbn [length] in H; try lia; try reflexivity.
  cbn [image_copies pairs_of map]. rewrite !moves_seq, moves_final, app_nil_r. rewrite IHn by lia.
  cbn. reflexivity.
Qed.
Lemma image_copies_moves e size final views c :
  all_moves (snd (image_copies e size final views c)) =
  map (fun sd => (view_texels (fst sd) (0, 0, 0) size, view_texels (snd sd) (0, 0, 0) size)) (pairs_of views).
Proof. apply image_copies_moves_n with (n := length views). lia. Qed.

(* One buffer barrier: the tracked state and the scope of the commands agree, before and after. *)
Lemma bbarrier_known c b o s i1 i2 wanted : ps_stage wanted <> S_BOTTOM ->
  let x := bufferBarrier c b o s i1 i2 wanted false in
  (scope_after (known_access c b i1 i2) (snd x) b = wanted) /\
  (forall b', b' <> b -> mfind b' (rc_buffers (fst x)) = mfind b' (rc_buffers c) /\ forall st, scope_after st (snd x) b' = st) /\
  (snd x = [] \/ mfind b (rc_buffers (fst x)) = Some wanted) /\ (snd x = [] -> fst x = c /\ known_access c b i1 i2 = wanted).
Proof.
  intros Hs. cbv zeta.
  destruct (buffer_cases c b o s i1 i2 wanted false) as [[Hn ->]|[Hn ->]]; cbn [fst snd set_buffers rc_buffers].
  - split; [cbn; rewrite N.eqb_refl; destruct wanted; reflexivity|]. split.
    + intros b' Hb. split; [apply mfind_mput_other; congruence|]. intro st. cbn. destruct (N.eqb_spec b' b); [contradiction|reflexivity].
    + split; [right; apply mfind_mput_same|discriminate].
  - assert (E : known_access c b i1 i2 = wanted).
    { destruct (known_access c b i1 i2) as [x y], wanted as [x' y']. cbn in *.
      destruct (N.eq_dec x x') as [->|]; [|exfalso; apply Hn; auto]. destruct (N.eq_dec y y') as [->|]; [reflexivity|exfalso; apply Hn; auto]. }
    split; [cbn; exact E|]. split; [intros; split; reflexivity|]. split; [left; reflexivity|]. auto.
Qed.

Lemma scope_app s l1 l2 b : scope_after s (l1 ++ l2) b = scope_after (scope_after s l1 b) l2 b.
Proof. unfold scope_after. apply fold_left_app. Qed.
Lemma known_same c c' b i1 i2 : mfind b (rc_buffers c') = mfind b (rc_buffers c) -> known_access c' b i1 i2 = known_access c b i1 i2.
Proof. intro H. unfold known_access. rewrite H. reflexivity. Qed.
Lemma known_tracked c b st i1 i2 : mfind b (rc_buffers c) = Some st -> ps_stage st <> S_BOTTOM -> known_access c b i1 i2 = st.
Proof. intros H Hs. unfold known_access. rewrite H. destruct (N.eqb_spec (ps_stage st) S_BOTTOM); [contradiction|reflexivity]. Qed.
(* with the initial state different from the wanted one, the state after a barrier is always the tracked one *)
Lemma bbarrier_tracked c b o s i1 i2 wanted : ps_stage wanted <> S_BOTTOM -> {| ps_access := i1; ps_stage := i2 |} <> wanted ->
  mfind b (rc_buffers (fst (bufferBarrier c b o s i1 i2 wanted false))) = Some wanted.
Proof.
  intros Hs Hi. destruct (bbarrier_known c b o s i1 i2 wanted Hs) as (_ & _ & [H|H] & K); [|exact H].
  destruct (K H) as [-> E]. unfold known_access in E. destruct (mfind b (rc_buffers c)) as [st|]; [|contradiction].
  destruct (N.eqb (ps_stage st) S_BOTTOM); [contradiction|]. rewrite E. reflexivity.
Qed.

Definition tread : pstate := {| ps_access := A_TRANSFER_READ; ps_stage := S_TRANSFER |}.
Definition twrite : pstate := {| ps_access := A_TRANSFER_WRITE; ps_stage := S_TRANSFER |}.
Lemma buffer_copy_shape src dst index off size c : attach_buffer src index <> attach_buffer dst index ->
  exists pre post c',
    buffer_copy src dst index off size c =
      (c', pre ++ CCopyBuffer (attach_buffer src index) (attach_buffer dst index) (u64_add (ba_offset src) off) (u64_add (ba_offset dst) off) size :: post) /\
    scope_after (known_access c (attach_buffer src index) A_SHADER_WRITE S_FRAGMENT) pre (attach_buffer src index) = tread /\
    scope_after (known_access c (attach_buffer dst index) 0 S_BOTTOM) pre (attach_buffer dst index) = twrite /\
    scope_after tread post (attach_buffer src index) = {| ps_access := A_SHADER_WRITE; ps_stage := S_FRAGMENT |} /\
    scope_after twrite post (attach_buffer dst index) = {| ps_access := A_SHADER_READ; ps_stage := S_COMPUTE |} /\
    all_moves pre = [] /\ all_moves post = [] /\
    getAccessState c' (attach_buffer src index) = {| ps_access := A_SHADER_WRITE; ps_stage := S_FRAGMENT |} /\
    getAccessState c' (attach_buffer dst index) = {| ps_access := A_SHADER_READ; ps_stage := S_COMPUTE |}.
Proof.
  intro Hne. set (s := attach_buffer src index) in *. set (d := attach_buffer dst index) in *.
  unfold buffer_copy. fold s d. fold tread twrite.
  assert (S1 : ps_stage tread <> S_BOTTOM) by discriminate. assert (S2 : ps_stage twrite <> S_BOTTOM) by discriminate.
  set (fs := {| ps_access := A_SHADER_WRITE; ps_stage := S_FRAGMENT |}). set (fd := {| ps_access := A_SHADER_READ; ps_stage := S_COMPUTE |}).
  assert (S3 : ps_stage fs <> S_BOTTOM) by discriminate. assert (S4 : ps_stage fd <> S_BOTTOM) by discriminate.
  pose proof (bbarrier_known c s (ba_offset src) (ba_size src) A_SHADER_WRITE S_FRAGMENT tread S1) as (A1 & A2 & _ & _).
  pose proof (bbarrier_tracked c s (ba_offset src) (ba_size src) A_SHADER_WRITE S_FRAGMENT tread S1 ltac:(discriminate)) as A3.
  pose proof (moves_bbarrier c s (ba_offset src) (ba_size src) A_SHADER_WRITE S_FRAGMENT tread false) as A4.
  destruct (bufferBarrier c s (ba_offset src) (ba_size src) A_SHADER_WRITE S_FRAGMENT tread false) as [c1 l1]. cbn [fst snd seq2] in *.
  pose proof (bbarrier_known c1 d (ba_offset dst) (ba_size dst) 0 S_BOTTOM twrite S2) as (B1 & B2 & _ & _).
  pose proof (bbarrier_tracked c1 d (ba_offset dst) (ba_size dst) 0 S_BOTTOM twrite S2 ltac:(discriminate)) as B3.
  pose proof (moves_bbarrier c1 d (ba_offset dst) (ba_size dst) 0 S_BOTTOM twrite false) as B4.
  destruct (bufferBarrier c1 d (ba_offset dst) (ba_size dst) 0 S_BOTTOM twrite false) as [c2 l2]. cbn [fst snd seq2 emit] in *.
  pose proof (bbarrier_known c2 d (ba_offset dst) (ba_size dst) 0 S_BOTTOM fd S4) as (C1 & C2 & _ & _).
  pose proof (bbarrier_tracked c2 d (ba_offset dst) (ba_size dst) 0 S_BOTTOM fd S4 ltac:(discriminate)) as C3.
  pose proof (moves_bbarrier c2 d (ba_offset dst) (ba_size dst) 0 S_BOTTOM fd false) as C4.
  destruct (bufferBarrier c2 d (ba_offset dst) (ba_size dst) 0 S_BOTTOM fd false) as [c3 l3]. cbn [fst snd seq2] in *.
  pose proof (bbarrier_known c3 s (ba_offset src) (ba_size src) 0 S_BOTTOM fs S3) as (D1 & D2 & _ & _).
  pose proof (bbarrier_tracked c3 s (ba_offset src) (ba_size src) 0 S_BOTTOM fs S3 ltac:(discriminate)) as D3.
  pose proof (moves_bbarrier c3 s (ba_offset src) (ba_size src) 0 S_BOTTOM fs false) as D4.
  destruct (bufferBarrier c3 s (ba_offset src) (ba_size src) 0 S_BOTTOM fs false) as [c4 l4]. cbn [fst snd seq2] in *.
  exists (l1 ++ l2), (l3 ++ l4), c4. split; [f_equal; rewrite <- !app_assoc; reflexivity|].
  assert (Hne' : d <> s) by congruence.
  split. { rewrite scope_app, A1. apply (B2 s Hne). }
  split. { rewrite scope_app. rewrite (proj2 (A2 d Hne')). rewrite <- (known_same c c1 d 0 S_BOTTOM (proj1 (A2 d Hne'))). exact B1. }
  split. { rewrite scope_app. rewrite (proj2 (C2 s Hne)).
    rewrite <- D1. f_equal. symmetry. apply known_tracked; [|exact S1].
    rewrite (proj1 (C2 s Hne)). rewrite (proj1 (B2 s Hne)). exact A3. }
  split. { rewrite scope_app. rewrite (proj2 (D2 d Hne')). rewrite <- C1. f_equal. symmetry. apply known_tracked; [exact B3|exact S2]. }
  rewrite !all_moves_app, A4, B4, C4, D4. split; [reflexivity|]. split; [reflexivity|].
  unfold getAccessState. rewrite D3. rewrite (proj1 (D2 d Hne')), C3. auto.
Qed.

Lemma dispatches_app l1 l2 : dispatches (l1 ++ l2) = dispatches l1 ++ dispatches l2.
Proof. apply filter_app. Qed.
Lemma dispatches_seq x f : dispatches (snd (x >>> f)) = dispatches (snd x) ++ dispatches (snd (f (fst x))).
Proof. destruct x as [c l]. cbn. destruct (f c) as [c' l']. cbn. apply dispatches_app. Qed.

Lemma configured_at l i b : configured l i b -> buffer_at l i = b.
Proof.
  intro H. destruct H as [b i|l i b Hl Hn]; [reflexivity|]. unfold buffer_at.
  destruct l as [|x [|y r]]; [destruct i; discriminate|cbn in Hl; lia|].
  rewrite (nth_error_nth _ _ 0 Hn). reflexivity.
Qed.
