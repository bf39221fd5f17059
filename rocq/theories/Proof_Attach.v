From Verif Require Import Spec_Attach.
From Coq Require Import ZifyBool ZifyNat ZifyN.
Local Open Scope N_scope.

Lemma land_lor_absorb x f : N.land (N.lor x f) f = f.
Proof. apply N.bits_inj. intro k. rewrite N.land_spec, N.lor_spec. destruct (N.testbit x k), (N.testbit f k); reflexivity. Qed.

Lemma hasFlag_lor_r x f : hasFlag (N.lor x f) f = true.
Proof. unfold hasFlag. rewrite land_lor_absorb. apply N.eqb_refl. Qed.

Lemma hasFlag_lor_l x y f : hasFlag x f = true -> hasFlag (N.lor x y) f = true.
Proof.
  unfold hasFlag. rewrite !N.eqb_eq. intro H. apply N.bits_inj. intro k.
  rewrite <- H. rewrite !N.land_spec, N.lor_spec.
  destruct (N.testbit x k), (N.testbit y k), (N.testbit f k); reflexivity.
Qed.

Lemma inout_flags x : hasFlag (N.lor (N.lor (N.lor (N.lor (N.lor (N.lor AF_InOut x) AF_Image) 0) 0) 0) 0) AF_Input = true
  /\ hasFlag (N.lor (N.lor (N.lor (N.lor (N.lor (N.lor AF_InOut x) AF_Image) 0) 0) 0) 0) AF_Output = true
  /\ hasFlag (N.lor (N.lor (N.lor (N.lor (N.lor (N.lor AF_InOut x) AF_Image) 0) 0) 0) 0) AF_Image = true.
Proof.
  repeat rewrite N.lor_0_r. repeat split.
  - do 2 apply hasFlag_lor_l. reflexivity.
  - do 2 apply hasFlag_lor_l. reflexivity.
  - apply hasFlag_lor_r.
Qed.

(* mergeViews *)
Lemma u32_small x : x < 2 ^ 32 -> u32 x = x.
Proof. intro. unfold u32. apply N.mod_small. assumption. Qed.

Lemma merge_dim_spec base count vbase vcount b c :
  base + count < 2 ^ 32 -> vbase + vcount < 2 ^ 32 ->
  merge_dim true base count vbase vcount = (b, c) ->
  b = N.min base vbase /\ b + c = N.max (base + count) (vbase + vcount).
Proof.
  intros H1 H2. unfold merge_dim. intro E. injection E as Eb Ec. subst b.
  rewrite (u32_small (count + base)), (u32_small (vcount + vbase)) in Ec by lia.
  assert (Hb : N.min vbase base = N.min base vbase) by lia. rewrite Hb in *.
  set (mx := N.max (count + base) (vcount + vbase)) in *. set (mn := N.min base vbase) in *.
  assert (mn <= mx) by lia.
  assert (Ec' : u32 (mx + 2 ^ 32 - mn) = mx - mn).
  { unfold u32. replace (mx + 2 ^ 32 - mn) with ((mx - mn) + 1 * 2 ^ 32) by lia.
    rewrite N.mod_add by lia. apply N.mod_small. lia. }
  split; [reflexivity|]. change (N.pos _) with (2^32) in Ec. rewrite Ec' in Ec. lia.
Qed.

Lemma merge_dim_base merge base count vbase vcount : fst (merge_dim merge base count vbase vcount) = N.min vbase base.
Proof. unfold merge_dim. destruct merge; reflexivity. Qed.

(* Invariant of the loop once the first view was met. *)
Record covers (mips layers : bool) (done : list view) (d : view) : Prop := {
  cov_mip : mips = true -> forall v, In v done -> mips_within (v_range v) (v_range d);
  cov_layer : layers = true -> forall v, In v done -> layers_within (v_range v) (v_range d);
  cov_mip_min : mips = true -> forall lo hi, (forall v, In v done -> lo <= r_mip (v_range v) /\ r_mip (v_range v) + r_levels (v_range v) <= hi) ->
      lo <= r_mip (v_range d) /\ r_mip (v_range d) + r_levels (v_range d) <= hi;
  cov_layer_min : layers = true -> forall lo hi, (forall v, In v done -> lo <= r_layer (v_range v) /\ r_layer (v_range v) + r_layers (v_range v) <= hi) ->
      lo <= r_layer (v_range d) /\ r_layer (v_range d) + r_layers (v_range d) <= hi;
  cov_src : v_source d = done;
  cov_nonzero : i_id (v_image d) <> 0;
  cov_img : exists v0 r, done = v0 :: r /\ v_image d = v_image v0 /\ v_format d = v_format v0 /\ v_type d = v_type v0;
  cov_bound_mip : mips = true -> r_mip (v_range d) + r_levels (v_range d) < 2 ^ 32;
  cov_bound_layer : layers = true -> r_layer (v_range d) + r_layers (v_range d) < 2 ^ 32
}.

Lemma covers_step mips layers done d v :
  covers mips layers done d -> range_ok (v_range v) -> covers mips layers (done ++ [v]) (merge_step mips layers d v).
Proof.
  intros C (Hl & Hr & Hm & Hy). unfold merge_step.
  destruct (N.eqb_spec (i_id (v_image d)) 0) as [E|_]; [destruct (cov_nonzero _ _ _ _ C E)|].
  destruct (merge_dim mips _ _ _ _) as [m mc] eqn:Em. destruct (merge_dim layers _ _ _ _) as [l lc] eqn:El.
  assert (Sm : mips = true -> m = N.min (r_mip (v_range d)) (r_mip (v_range v)) /\
     m + mc = N.max (r_mip (v_range d) + r_levels (v_range d)) (r_mip (v_range v) + r_levels (v_range v))).
  { intros ->. apply merge_dim_spec; auto. apply (cov_bound_mip _ _ _ _ C eq_refl). }
  assert (Sl : layers = true -> l = N.min (r_layer (v_range d)) (r_layer (v_range v)) /\
     l + lc = N.max (r_layer (v_range d) + r_layers (v_range d)) (r_layer (v_range v) + r_layers (v_range v))).
  { intros ->. apply merge_dim_spec; auto. apply (cov_bound_layer _ _ _ _ C eq_refl). }
  constructor; cbn.
  - intros T x Hx. destruct (Sm T) as [S1 S2]. unfold mips_within; cbn. apply in_app_or in Hx. destruct Hx as [Hx|[->|[]]].
    + destruct (cov_mip _ _ _ _ C T x Hx). lia.
    + lia.
  - intros T x Hx. destruct (Sl T) as [S1 S2]. unfold layers_within; cbn. apply in_app_or in Hx. destruct Hx as [Hx|[->|[]]].
    + destruct (cov_layer _ _ _ _ C T x Hx). lia.
    + lia.
  - intros T lo hi H. destruct (Sm T) as [S1 S2].
    destruct (cov_mip_min _ _ _ _ C T lo hi) as [A B]. { intros x Hx. apply H. apply in_or_app; auto. }
    specialize (H v ltac:(apply in_or_app; right; left; reflexivity)). lia.
  - intros T lo hi H. destruct (Sl T) as [S1 S2].
    destruct (cov_layer_min _ _ _ _ C T lo hi) as [A B]. { intros x Hx. apply H. apply in_or_app; auto. }
    specialize (H v ltac:(apply in_or_app; right; left; reflexivity)). lia.
  - rewrite (cov_src _ _ _ _ C). reflexivity.
  - apply (cov_nonzero _ _ _ _ C).
  - destruct (cov_img _ _ _ _ C) as (v0 & r & -> & Hi). exists v0, (r ++ [v]). auto.
  - intros T. destruct (Sm T) as [S1 S2]. pose proof (cov_bound_mip _ _ _ _ C T). lia.
  - intros T. destruct (Sl T) as [S1 S2]. pose proof (cov_bound_layer _ _ _ _ C T). lia.
Qed.

Lemma covers_fold mips layers views : forall done d,
  covers mips layers done d -> (forall v, In v views -> range_ok (v_range v)) ->
  covers mips layers (done ++ views) (fold_left (merge_step mips layers) views d).
Proof.
  induction views as [|v vs IH]; intros done d C H; cbn.
  - rewrite app_nil_r. exact C.
  - replace (done ++ v :: vs) with ((done ++ [v]) ++ vs) by (rewrite <- app_assoc; reflexivity).
    apply IH; [apply covers_step; auto; apply H; left; reflexivity | intros; apply H; right; assumption].
Qed.

Lemma covers_first mips layers v : i_id (v_image v) <> 0 -> range_ok (v_range v) ->
  covers mips layers [v] (merge_step mips layers dummy_view v).
Proof.
  intros Hi (Hl & Hr & Hm & Hy). unfold merge_step. cbn.
  constructor; cbn; auto.
  - intros _ x [->|[]]. unfold mips_within; lia.
  - intros _ x [->|[]]. unfold layers_within; lia.
  - exists v, []. auto.
Qed.

Lemma merge_covers id cube mips layers v vs :
  i_id (v_image v) <> 0 -> (forall x, In x (v :: vs) -> range_ok (v_range x)) ->
  exists d, covers mips layers (v :: vs) d /\
    mergeViews id cube (v :: vs) mips layers =
      mkView id (v_image d) (v_flags d) (promote_type cube (v_type d) (v_range d)) (v_format d) (v_range d) (v_source d).
Proof.
  intros Hi H. exists (fold_left (merge_step mips layers) (v :: vs) dummy_view). split; [|reflexivity].
  cbn [fold_left]. change (v :: vs) with ([v] ++ vs). apply covers_fold.
  - apply covers_first; auto. apply H. left; reflexivity.
  - intros; apply H; right; assumption.
Qed.
