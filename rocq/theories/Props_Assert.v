(* C116: the assertions on the image attachments that are declared. *)
From Verif Require Import Spec_Assert.
From Coq Require Import Lia ZifyBool ZifyNat ZifyN.
Local Open Scope N_scope.

Lemma land_pow x k : (negb (N.eqb (N.land x (2 ^ k)) 0) = true <-> N.testbit x k = true).
Proof.
  rewrite negb_true_iff, N.eqb_neq. destruct (N.testbit x k) eqn:E; split; intro H; try reflexivity; try discriminate.
  - intro F. assert (N.testbit (N.land x (2 ^ k)) k = false) as G by (rewrite F; apply N.bits_0). rewrite N.land_spec, E, N.pow2_bits_true in G. discriminate.
  - exfalso. apply H. apply N.bits_inj. intro n. rewrite N.land_spec, N.bits_0. destruct (N.eq_dec n k) as [->|D]; [rewrite E; reflexivity|].
    rewrite N.pow2_bits_false by congruence. apply andb_false_r.
Qed.
Lemma land_two x : (negb (N.eqb (N.land x (N.lor ASPECT_DEPTH ASPECT_STENCIL)) 0) = true <-> N.testbit x 1 = true \/ N.testbit x 2 = true).
Proof.
  rewrite <- !land_pow, !negb_true_iff, !N.eqb_neq. rewrite N.land_lor_distr_r. change (2 ^ 1) with ASPECT_DEPTH. change (2 ^ 2) with ASPECT_STENCIL.
  split.
  - intro H. destruct (N.eq_dec (N.land x ASPECT_DEPTH) 0) as [E|E]; [right|left; exact E]. intro F. apply H. rewrite E, F. reflexivity.
  - intros [H|H] F; apply N.lor_eq_0_iff in F; tauto.
Qed.
Lemma colour_has f : isColourFormat f = true <-> has_aspect f 0.
Proof.
  unfold isColourFormat, isDepthFormat, isStencilFormat. cbn [existsb]. unfold F_D16, F_X8_D24, F_D32, F_S8, F_D16_S8, F_D24_S8, F_D32_S8.
  split; [intro H; constructor; lia|intro H; inversion H; lia].
Qed.
Lemma depth_has f : isDepthFormat f = true <-> has_aspect f 1.
Proof.
  unfold isDepthFormat. cbn [existsb]. unfold F_D16, F_X8_D24, F_D32, F_D16_S8, F_D24_S8, F_D32_S8.
  split; [intro H; constructor; lia|intro H; inversion H; lia].
Qed.
Lemma stencil_has f : isStencilFormat f = true <-> has_aspect f 2.
Proof.
  unfold isStencilFormat. cbn [existsb]. unfold F_S8, F_D16_S8, F_D24_S8, F_D32_S8.
  split; [intro H; constructor; lia|intro H; inversion H; lia].
Qed.
Lemma aspect_iff v : aspect_asserted v = true <-> exists k, names v k /\ has_aspect (v_format v) k.
Proof.
  unfold aspect_asserted, names. cbv zeta. rewrite !orb_true_iff, !andb_true_iff. rewrite land_two.
  change ASPECT_COLOR with (2 ^ 0). change ASPECT_DEPTH with (2 ^ 1). change ASPECT_STENCIL with (2 ^ 2). rewrite !land_pow.
  unfold isDepthStencilFormat. rewrite andb_true_iff, colour_has, depth_has, stencil_has. split.
  - intros [[[[H P]|[[H|H] [P Q]]]|[H P]]|[H P]]; eexists; split; eassumption.
  - intros (k & H & P). assert (k = 0 \/ k = 1 \/ k = 2) as [->|[->| ->]] by (inversion P; auto); tauto.
Qed.
Lemma operations_of m pass views binding wanted flag misc : operations_asserted (declare_image m pass views binding wanted flag misc) = true.
Proof. destruct m; reflexivity. Qed.
Lemma views_of m pass views binding wanted flag misc : ia_views (declare_image m pass views binding wanted flag misc) = views.
Proof. destruct m; reflexivity. Qed.

(** C116: a declaration passes the assertions exactly when its first view names an aspect that its format has. *)
Theorem C116_accepted_partial : forall m pass views binding wanted flag misc,
  asserted (declare_image m pass views binding wanted flag misc) = Some true <->
  exists v others, views = v :: others /\ exists k, names v k /\ has_aspect (v_format v) k.
Proof.
  intros. unfold asserted. rewrite views_of, operations_of. destruct views as [|v r]; cbn [first_view].
  - split; [discriminate|intros (v & o & E & _); discriminate E].
  - destruct (aspect_asserted v) eqn:A.
    + split; [|reflexivity]. intros _. exists v, r. split; [reflexivity|]. apply aspect_iff. exact A.
    + split; [discriminate|]. intros (w & o & E & H). injection E as <- <-. apply aspect_iff in H. congruence.
Qed.
Print Assumptions C116_accepted_partial.
(* It fails them exactly when the first view names no aspect of its format; without view it is undefined. *)
Theorem C116_failed : forall m pass views binding wanted flag misc,
  (asserted (declare_image m pass views binding wanted flag misc) = Some false <->
   exists v others, views = v :: others /\ forall k, names v k -> ~ has_aspect (v_format v) k) /\
  (asserted (declare_image m pass views binding wanted flag misc) = None <-> views = []).
Proof.
  intros. unfold asserted. rewrite views_of, operations_of. destruct views as [|v r]; cbn [first_view].
  - split; [split; [discriminate|intros (v & o & E & _); discriminate E]|split; auto].
  - split; [|split; discriminate]. destruct (aspect_asserted v) eqn:A.
    + split; [discriminate|]. intros (w & o & E & H). injection E as <- <-. apply aspect_iff in A. destruct A as (k & N & P). destruct (H k N P).
    + split; [|reflexivity]. intros _. exists v, r. split; [reflexivity|]. intros k N P. assert (aspect_asserted v = true) by (apply aspect_iff; exists k; auto). congruence.
Qed.
Print Assumptions C116_failed.
(* No sound declaration is refused: any method, sound views. *)
Theorem C116_sound_views_pass : forall m pass views binding wanted flag misc,
  views <> [] -> (forall v, In v views -> sound_view v) -> asserted (declare_image m pass views binding wanted flag misc) = Some true.
Proof.
  intros m pass views binding wanted flag misc N S. apply C116_accepted_partial. destruct views as [|v r]; [contradiction|]. exists v, r. split; [reflexivity|].
  destruct (S v (or_introl eq_refl)) as [[k K] A]. exists k. split; [exact K|apply A, K].
Qed.
Print Assumptions C116_sound_views_pass.

Definition av (format aspect : N) : view :=
  mkView 1 {| i_id := 1; i_width := 64; i_height := 64; i_depth := 1; i_levels := 1; i_layers := 1; i_format := format |} 0 VT_2D format
    {| r_aspect := aspect; r_mip := 0; r_levels := 1; r_layer := 0; r_layers := 1 |} [].
(* The other views of the attachment, one for each pass index, are not looked at. *)
Theorem C116_other_views_refuted : forall m pass binding wanted flag misc, exists views,
  asserted (declare_image m pass views binding wanted flag misc) = Some true /\ exists v, In v views /\ forall k, names v k -> ~ has_aspect (v_format v) k.
Proof.
  intros. exists [av 37 1; av 37 2]. split.
  - apply C116_accepted_partial. exists (av 37 1), [av 37 2]. split; [reflexivity|]. exists 0. split; [reflexivity|constructor; cbn; lia].
  - exists (av 37 2). split; [right; left; reflexivity|]. intros k H P. inversion P; subst; cbn in *; try lia. discriminate H.
Qed.
Print Assumptions C116_other_views_refuted.
(* Aspects the format does not have are not looked at, once it has one of those named. *)
Theorem C116_extra_aspect_refuted : forall m pass binding wanted flag misc, exists v k,
  asserted (declare_image m pass [v] binding wanted flag misc) = Some true /\ names v k /\ ~ has_aspect (v_format v) k.
Proof.
  intros. exists (av 126 6), 2. split; [|split; [reflexivity|intro P; inversion P; cbn in *; lia]].
  apply C116_accepted_partial. eexists; eexists. split; [reflexivity|]. exists 1. split; [reflexivity|constructor; cbn; [split; discriminate|discriminate]].
Qed.
Print Assumptions C116_extra_aspect_refuted.
(* What the method is for is not looked at: every target method takes a view without the aspect it is about. *)
Theorem C116_wrong_target_refuted : forall m k pass binding wanted flag misc, about m k -> exists v,
  sound_view v /\ (forall j, about m j -> ~ has_aspect (v_format v) j) /\ asserted (declare_image m pass [v] binding wanted flag misc) = Some true.
Proof.
  intros m k pass binding wanted flag misc A.
  assert (S1 : sound_view (av 37 1)).
  { split; [exists 0; reflexivity|]. intros j J. unfold names, av in J. cbn [r_aspect v_range] in J. change 1 with (2 ^ 0) in J. rewrite N.pow2_bits_eqb in J. apply N.eqb_eq in J. subst j. constructor. cbn. lia. }
  assert (S2 : sound_view (av 126 2)).
  { split; [exists 1; reflexivity|]. intros j J. unfold names, av in J. cbn [r_aspect v_range] in J. change 2 with (2 ^ 1) in J. rewrite N.pow2_bits_eqb in J. apply N.eqb_eq in J. subst j. constructor; cbn; lia. }
  assert (C : (forall j, about m j -> j <> 0) -> exists v,
    sound_view v /\ (forall j, about m j -> ~ has_aspect (v_format v) j) /\ asserted (declare_image m pass [v] binding wanted flag misc) = Some true).
  { intro H. exists (av 37 1). split; [exact S1|]. split.
    - intros j J P. pose proof (H j J). inversion P; subst; cbn in *; lia.
    - apply C116_sound_views_pass; [discriminate|]. intros v [<-|[]]. exact S1. }
  destruct m; cbn [about] in *; try contradiction; try (apply C; intros j J; lia).
  all: exists (av 126 2); split; [exact S2|]; split; [intros j -> P; inversion P; cbn in *; lia|apply C116_sound_views_pass; [discriminate|]; intros v [<-|[]]; exact S2].
Qed.
Print Assumptions C116_wrong_target_refuted.
Example C116_applies :
  asserted (declare_image addSampledView 1 [av 37 1] 0 0 0 0) = Some true /\ asserted (declare_image addSampledView 1 [av 37 2] 0 0 0 0) = Some false /\
  asserted (declare_image addOutputDepthView 1 [av 124 2] 0 0 0 0) = Some true /\ asserted (declare_image addOutputDepthView 1 [av 127 2] 0 0 0 0) = Some false /\
  asserted (declare_image addOutputStencilView 1 [av 127 4] 0 0 0 0) = Some true /\ asserted (declare_image addOutputDepthStencilView 1 [av 129 4] 0 0 0 0) = Some true /\
  asserted (declare_image addOutputColourView 1 [av 126 1] 0 0 0 0) = Some false /\ asserted (declare_image addOutputColourView 1 [] 0 0 0 0) = None.
Proof. vm_compute. repeat split. Qed.
