From Verif Require Import Spec_Float.
From Coq Require Import Lia Lqa Qpower Qfield.
Local Open Scope Q_scope.

Lemma two_pos e : 0 < 2 ^ e.
Proof. apply Qpower_0_lt. reflexivity. Qed.
Lemma two_nz : ~ 2 == 0.
Proof. discriminate. Qed.
Lemma two_add e k : 2 ^ (e + k) == 2 ^ e * 2 ^ k.
Proof. apply Qpower_plus, two_nz. Qed.
Lemma two_z k : (0 <= k)%Z -> inject_Z (2 ^ k) == 2 ^ k.
Proof. intro H. rewrite Zpower_Qpower by exact H. reflexivity. Qed.
Lemma two_opp e : 2 ^ (- e) * 2 ^ e == 1.
Proof. rewrite <- two_add. replace (- e + e)%Z with 0%Z by lia. reflexivity. Qed.
Lemma inj_pos d : (0 < d)%Z -> 0 < inject_Z d.
Proof. intro H. change 0 with (inject_Z 0). rewrite <- Zlt_Qlt. exact H. Qed.

Lemma scaled_pos n d e a b : (0 < n)%Z -> (0 < d)%Z -> scaled n d e = (a, b) -> (0 < a /\ 0 < b)%Z.
Proof.
  intros Hn Hd E. unfold scaled in E. injection E as <- <-.
  assert (0 < 2 ^ Z.max 0 (- e))%Z by (apply Z.pow_pos_nonneg; lia). assert (0 < 2 ^ Z.max 0 e)%Z by (apply Z.pow_pos_nonneg; lia). nia.
Qed.
Lemma scaled_value n d e a b : (0 < n)%Z -> (0 < d)%Z -> scaled n d e = (a, b) ->
  inject_Z n / inject_Z d == (inject_Z a / inject_Z b) * 2 ^ e.
Proof.
  intros Hn Hd E. unfold scaled in E. injection E as <- <-. rewrite !inject_Z_mult, !two_z by lia.
  pose proof (inj_pos d Hd) as Pd. pose proof (two_pos e) as Pe. pose proof (two_opp e) as O.
  destruct (Z_le_dec 0 e) as [L|L].
  - replace (Z.max 0 (- e)) with 0%Z by lia. replace (Z.max 0 e) with e by lia. change (2 ^ 0) with 1. field. split; intro C; rewrite C in *; discriminate || (rewrite C in Pd; discriminate) .
  - replace (Z.max 0 e) with 0%Z by lia. replace (Z.max 0 (- e)) with (- e)%Z by lia. change (2 ^ 0) with 1.
    assert (Nd : ~ inject_Z d == 0) by (intro C; rewrite C in Pd; discriminate).
    setoid_replace (inject_Z n * 2 ^ (- e) / (inject_Z d * 1) * 2 ^ e) with ((inject_Z n / inject_Z d) * (2 ^ (- e) * 2 ^ e)) by (field; exact Nd).
    rewrite O. ring.
Qed.

Lemma nearest_int_le a b k : (0 < b)%Z -> (0 <= a)%Z -> (Z.abs (a - b * nearest_int a b) <= Z.abs (a - b * k))%Z.
Proof.
  intros Hb Ha. unfold nearest_int. pose proof (Z.div_mod a b ltac:(lia)) as E. pose proof (Z.mod_pos_bound a b Hb) as B.
  set (q := (a / b)%Z) in *. set (r := (a mod b)%Z) in *.
  assert (K : (Z.abs (a - b * k) >= Z.min r (b - r))%Z).
  { destruct (Z_le_dec k q); [assert (b * k <= b * q)%Z by nia; lia|assert (b * (q + 1) <= b * k)%Z by nia; lia]. }
  destruct (Z.ltb_spec (2 * r) b); [lia|]. destruct (Z.ltb_spec b (2 * r)); [|destruct (Z.even q)]; lia.
Qed.
Lemma nearest_int_half a b : (0 < b)%Z -> (0 <= a)%Z -> (2 * Z.abs (a - b * nearest_int a b) <= b)%Z.
Proof.
  intros Hb Ha. unfold nearest_int. pose proof (Z.div_mod a b ltac:(lia)) as E. pose proof (Z.mod_pos_bound a b Hb) as B.
  set (q := (a / b)%Z) in *. set (r := (a mod b)%Z) in *.
  destruct (Z.ltb_spec (2 * r) b); [lia|]. destruct (Z.ltb_spec b (2 * r)); [|destruct (Z.even q)]; lia.
Qed.
Lemma abs_frac a b k : (0 < b)%Z -> Qabs (inject_Z a / inject_Z b - inject_Z k) == inject_Z (Z.abs (a - b * k)) / inject_Z b.
Proof.
  intro Hb. pose proof (inj_pos b Hb) as P. assert (N : ~ inject_Z b == 0) by (intro C; rewrite C in P; discriminate).
  setoid_replace (inject_Z a / inject_Z b - inject_Z k) with (inject_Z (a - b * k) / inject_Z b).
  2: { unfold Zminus. rewrite inject_Z_plus, inject_Z_opp, inject_Z_mult. field. exact N. }
  unfold Qdiv. rewrite Qabs_Qmult. rewrite (Qabs_pos (/ inject_Z b)) by (apply Qlt_le_weak, Qinv_lt_0_compat, P). reflexivity.
Qed.

(* the leading bit *)
Lemma frac_le a b x : (0 < b)%Z -> (inject_Z x <= inject_Z a / inject_Z b <-> (b * x <= a)%Z).
Proof.
  intro Hb. pose proof (inj_pos b Hb) as P. rewrite <- (Qmult_le_r _ _ (inject_Z b) P).
  setoid_replace (inject_Z a / inject_Z b * inject_Z b) with (inject_Z a) by (field; intro C; rewrite C in P; discriminate).
  rewrite <- inject_Z_mult, <- Zle_Qle. rewrite Z.mul_comm. reflexivity.
Qed.
Lemma frac_lt a b x : (0 < b)%Z -> (inject_Z a / inject_Z b < inject_Z x <-> (a < b * x)%Z).
Proof.
  intro Hb. pose proof (inj_pos b Hb) as P. rewrite <- (Qmult_lt_r _ _ (inject_Z b) P).
  setoid_replace (inject_Z a / inject_Z b * inject_Z b) with (inject_Z a) by (field; intro C; rewrite C in P; discriminate).
  rewrite <- inject_Z_mult, <- Zlt_Qlt. rewrite Z.mul_comm. reflexivity.
Qed.
Lemma log2_frac n d : (0 < n)%Z -> (0 < d)%Z ->
  let k := (Z.log2 n - Z.log2 d)%Z in 2 ^ (k - 1) < inject_Z n / inject_Z d /\ inject_Z n / inject_Z d < 2 ^ (k + 1).
Proof.
  intros Hn Hd k. destruct (Z.log2_spec n Hn) as [N1 N2]. destruct (Z.log2_spec d Hd) as [D1 D2].
  pose proof (Z.log2_nonneg n) as Ln. pose proof (Z.log2_nonneg d) as Ld. pose proof (inj_pos d Hd) as P.
  rewrite Zle_Qle, two_z in N1, D1 by lia. rewrite Zlt_Qlt, two_z in N2, D2 by lia.
  assert (E : inject_Z n / inject_Z d * inject_Z d == inject_Z n) by (field; intro C; rewrite C in P; discriminate).
  split.
  - apply (Qmult_lt_r _ _ (inject_Z d) P). rewrite E. apply Qlt_le_trans with (2 ^ (k - 1) * 2 ^ Z.succ (Z.log2 d)).
    + apply Qmult_lt_l; [apply two_pos|exact D2].
    + rewrite <- two_add. replace (k - 1 + Z.succ (Z.log2 d))%Z with (Z.log2 n) by (subst k; lia). exact N1.
  - apply (Qmult_lt_r _ _ (inject_Z d) P). rewrite E. apply Qlt_le_trans with (2 ^ Z.succ (Z.log2 n)); [exact N2|].
    replace (Z.succ (Z.log2 n)) with (k + 1 + Z.log2 d)%Z by (subst k; lia). rewrite two_add.
    apply Qmult_le_l; [apply two_pos|exact D1].
Qed.
Lemma leading_spec n d : (0 < n)%Z -> (0 < d)%Z ->
  2 ^ leading n d <= inject_Z n / inject_Z d /\ inject_Z n / inject_Z d < 2 ^ (leading n d + 1).
Proof.
  intros Hn Hd. destruct (log2_frac n d Hn Hd) as [L H]. unfold leading. set (k := (Z.log2 n - Z.log2 d)%Z) in *.
  destruct (scaled n d k) as [a b] eqn:E. destruct (scaled_pos _ _ _ _ _ Hn Hd E) as [Pa Pb]. pose proof (scaled_value _ _ _ _ _ Hn Hd E) as V.
  destruct (Z.leb_spec b a) as [C|C].
  - split; [|exact H]. rewrite V. setoid_replace (2 ^ k) with (1 * 2 ^ k) at 1 by ring. apply Qmult_le_compat_r; [|apply Qlt_le_weak, two_pos].
    change 1 with (inject_Z 1). apply frac_le; [exact Pb|]. lia.
  - split; [apply Qlt_le_weak, L|]. replace (k - 1 + 1)%Z with k by lia. rewrite V. setoid_replace (2 ^ k) with (1 * 2 ^ k) at 2 by ring.
    apply Qmult_lt_compat_r; [apply two_pos|]. change 1 with (inject_Z 1). apply frac_lt; [exact Pb|]. lia.
Qed.

(* what rounding does to a positive fraction *)
Record rounded (x : Q) (f : f32) (X : Q) : Prop := {
  ro_scale : x == X * 2 ^ f_exp f;
  ro_exp : (-149 <= f_exp f <= 104)%Z;
  ro_mant : (0 <= f_mant f <= 2 ^ 24)%Z;
  ro_top : f_mant f = (2 ^ 24)%Z -> (f_exp f < 104)%Z;
  ro_low : (-149 < f_exp f)%Z -> inject_Z (2 ^ 23) <= X;
  ro_near : forall k, Qabs (X - inject_Z (f_mant f)) <= Qabs (X - inject_Z k);
  ro_half : Qabs (X - inject_Z (f_mant f)) <= 1 # 2 }.
Lemma nearest_int_range a b : (0 < b)%Z -> (0 <= a)%Z -> (a < b * 2 ^ 24)%Z -> (0 <= nearest_int a b <= 2 ^ 24)%Z.
Proof.
  intros Hb Ha H. pose proof (nearest_int_le a b 0 Hb Ha) as A. pose proof (nearest_int_le a b (2 ^ 24) Hb Ha) as B.
  pose proof (nearest_int_half a b Hb Ha) as C. set (m := nearest_int a b) in *. split.
  - destruct (Z_le_dec 0 m) as [|N]; [assumption|]. assert (b * m <= - b)%Z by nia. lia.
  - destruct (Z_le_dec m (2 ^ 24)) as [|N]; [assumption|]. assert (b * (2 ^ 24 + 1) <= b * m)%Z by nia. lia.
Qed.
Lemma to_f32_rounded n d f : (0 < n)%Z -> (0 < d)%Z -> to_f32 n d = Some f -> exists X, rounded (inject_Z n / inject_Z d) f X.
Proof.
  intros Hn Hd. unfold to_f32. destruct (Z.eqb_spec n 0) as [|_]; [lia|]. destruct (leading_spec n d Hn Hd) as [L H].
  set (e := Z.max (leading n d - 23) (-149)). destruct (scaled n d e) as [a b] eqn:E.
  destruct (scaled_pos _ _ _ _ _ Hn Hd E) as [Pa Pb]. pose proof (scaled_value _ _ _ _ _ Hn Hd E) as V.
  destruct (orb _ _) eqn:O; [|discriminate]. intro F. injection F as <-.
  assert (T : (a < b * 2 ^ 24)%Z).
  { apply (frac_lt a b (2 ^ 24) Pb). rewrite two_z by lia. apply (Qmult_lt_r _ _ (2 ^ e) (two_pos e)). rewrite <- V.
    apply Qlt_le_trans with (1 := H). rewrite <- two_add. apply Qpower_le_compat_l; [subst e; lia|discriminate]. }
  assert (T2 : (-149 < e)%Z -> inject_Z (2 ^ 23) <= inject_Z a / inject_Z b).
  { intro G. rewrite two_z by lia. apply (Qmult_le_r _ _ (2 ^ e) (two_pos e)). rewrite <- V. rewrite <- two_add.
    replace (23 + e)%Z with (leading n d) by (subst e; lia). exact L. }
  apply orb_prop in O. assert (O' : (e < 104)%Z \/ e = 104%Z /\ (nearest_int a b < 2 ^ 24)%Z).
  { destruct O as [O|O]; [left; apply Z.ltb_lt, O|right]. apply andb_prop in O as [O1 O2]. apply Z.eqb_eq in O1. apply Z.ltb_lt in O2. auto. }
  exists (inject_Z a / inject_Z b). constructor; cbn [f_mant f_exp].
  - exact V.
  - subst e. lia.
  - apply nearest_int_range; [exact Pb|lia|exact T].
  - lia.
  - exact T2.
  - intro k. rewrite !abs_frac by exact Pb. apply Qmult_le_compat_r; [|apply Qlt_le_weak, Qinv_lt_0_compat, inj_pos, Pb].
    rewrite <- Zle_Qle. apply nearest_int_le; lia.
  - rewrite abs_frac by exact Pb. apply (Qmult_le_r _ _ (inject_Z b) (inj_pos b Pb)).
    setoid_replace (inject_Z (Z.abs (a - b * nearest_int a b)) / inject_Z b * inject_Z b) with (inject_Z (Z.abs (a - b * nearest_int a b)))
      by (field; intro C; pose proof (inj_pos b Pb) as P; rewrite C in P; discriminate).
    pose proof (nearest_int_half a b Pb ltac:(lia)) as Hh. rewrite Zle_Qle, inject_Z_mult in Hh. change (inject_Z 2) with 2 in Hh. lra.
Qed.

Lemma abs_scale X m e : Qabs (X * 2 ^ e - m * 2 ^ e) == Qabs (X - m) * 2 ^ e.
Proof.
  setoid_replace (X * 2 ^ e - m * 2 ^ e) with ((X - m) * 2 ^ e) by ring. rewrite Qabs_Qmult.
  rewrite (Qabs_pos (2 ^ e)) by apply Qlt_le_weak, two_pos. reflexivity.
Qed.
Lemma rounded_value x f X : rounded x f X -> Qabs (x - value f) == Qabs (X - inject_Z (f_mant f)) * 2 ^ f_exp f.
Proof. intro R. rewrite (ro_scale _ _ _ R). unfold value. apply abs_scale. Qed.
Lemma rounded_f32 x f X : rounded x f X -> is_f32 (value f).
Proof.
  intro R. pose proof (ro_mant _ _ _ R) as M. pose proof (ro_exp _ _ _ R) as E. destruct (Z.eq_dec (f_mant f) (2 ^ 24)) as [T|T].
  - pose proof (ro_top _ _ _ R T). exists (2 ^ 23)%Z, (f_exp f + 1)%Z. split; [lia|]. unfold value. rewrite T. rewrite two_add.
    change (inject_Z (2 ^ 24)) with (inject_Z (2 ^ 23) * 2). ring.
  - exists (f_mant f), (f_exp f). split; [lia|reflexivity].
Qed.
Lemma rounded_nearest x f X : rounded x f X -> nearest x (value f).
Proof.
  intro R. split; [exact (rounded_f32 _ _ _ R)|]. intros w (m & e & (Hm & He) & W). rewrite (rounded_value _ _ _ R), W, (ro_scale _ _ _ R).
  destruct (Z_le_dec (f_exp f) e) as [L|L].
  - replace e with ((e - f_exp f) + f_exp f)%Z by lia. rewrite two_add, Qmult_assoc, abs_scale.
    apply Qmult_le_compat_r; [|apply Qlt_le_weak, two_pos]. rewrite <- two_z by lia. rewrite <- inject_Z_mult. apply (ro_near _ _ _ R).
  - pose proof (ro_low _ _ _ R ltac:(lia)) as Lo.
    replace e with ((e - f_exp f) + f_exp f)%Z by lia. rewrite two_add, Qmult_assoc, abs_scale.
    apply Qmult_le_compat_r; [|apply Qlt_le_weak, two_pos]. apply Qle_trans with (1 := ro_near _ _ _ R (2 ^ 23)).
    set (k := (e - f_exp f)%Z).
    assert (S : inject_Z m * 2 ^ k <= inject_Z (2 ^ 23)).
    { apply Qle_trans with (inject_Z (2 ^ 24) * 2 ^ k).
      - apply Qmult_le_compat_r; [rewrite <- Zle_Qle; lia|apply Qlt_le_weak, two_pos].
      - rewrite !two_z by lia. rewrite <- two_add. apply Qpower_le_compat_l; [subst k; lia|discriminate]. }
    rewrite !Qabs_pos; lra.
Qed.
Lemma rounded_relative x f X : rounded x f X -> 2 ^ (-126) <= x -> Qabs (x - value f) <= x * (1 # 2 ^ 24).
Proof.
  intros R B. rewrite (rounded_value _ _ _ R). pose proof (ro_half _ _ _ R) as H. pose proof (two_pos (f_exp f)) as P.
  apply Qle_trans with ((1 # 2) * 2 ^ f_exp f); [apply Qmult_le_compat_r; [exact H|apply Qlt_le_weak, P]|].
  assert (Lo : inject_Z (2 ^ 23) <= X).
  { destruct (Z_le_dec (f_exp f) (-149)) as [E|E]; [|apply (ro_low _ _ _ R); lia].
    pose proof (ro_exp _ _ _ R) as E2. assert (E3 : f_exp f = (-149)%Z) by lia. rewrite (ro_scale _ _ _ R), E3 in B.
    replace (-126)%Z with (23 + (-149))%Z in B by reflexivity. rewrite two_add in B. apply Qmult_le_r in B; [|apply two_pos].
    rewrite two_z by lia. exact B. }
  rewrite (ro_scale _ _ _ R). setoid_replace (X * 2 ^ f_exp f * (1 # 2 ^ 24)) with ((X * (1 # 2 ^ 24)) * 2 ^ f_exp f) by ring.
  apply Qmult_le_compat_r; [|apply Qlt_le_weak, P]. change (inject_Z (2 ^ 23)) with (8388608 # 1) in Lo. change (1 # 2 ^ 24) with (1 # 16777216). lra.
Qed.

Lemma zero_value f : f_mant f = 0%Z -> value f == 0.
Proof. intro E. unfold value. rewrite E. ring. Qed.
Lemma zero_f32 : is_f32 0.
Proof. exists 0%Z, 0%Z. split; [lia|reflexivity]. Qed.
Lemma is_f32_eq x y : x == y -> is_f32 x -> is_f32 y.
Proof. intros E (m & e & H & V). exists m, e. split; [exact H|]. rewrite <- E. exact V. Qed.
Lemma nearest_eq x y v w : x == y -> v == w -> nearest x v -> nearest y w.
Proof. intros E F (A & B). split; [exact (is_f32_eq _ _ F A)|]. intros u U. rewrite <- E, <- F. apply B, U. Qed.
Lemma nearest_exact x v : is_f32 x -> nearest x v -> v == x.
Proof.
  intros F (_ & B). specialize (B x F). setoid_replace (x - x) with 0 in B by ring. change (Qabs 0) with 0 in B.
  apply Qabs_Qle_condition in B. lra.
Qed.
Lemma inj_nonneg m : (0 <= m)%Z -> 0 <= inject_Z m.
Proof. intro H. change 0 with (inject_Z 0). rewrite <- Zle_Qle. exact H. Qed.
Lemma nz_of_pos q : 0 < q -> ~ q == 0.
Proof. intros P C. rewrite C in P. discriminate. Qed.

(* rounding is correct rounding *)
Lemma to_f32_nearest n d f : (0 <= n)%Z -> (0 < d)%Z -> to_f32 n d = Some f -> nearest (inject_Z n / inject_Z d) (value f) /\ (0 <= f_mant f)%Z.
Proof.
  intros Hn Hd E. destruct (Z.eq_dec n 0) as [->|Z].
  - injection E as <-. split; [|cbn; lia]. apply (nearest_eq 0 _ 0 _).
    + unfold Qdiv. change (inject_Z 0) with 0. ring.
    + symmetry. apply zero_value. reflexivity.
    + split; [apply zero_f32|]. intros w _. setoid_replace (0 - 0) with 0 by ring. apply Qabs_nonneg.
  - destruct (to_f32_rounded n d f ltac:(lia) Hd E) as [X R]. split; [exact (rounded_nearest _ _ _ R)|exact (proj1 (ro_mant _ _ _ R))].
Qed.
(* not too large: a float *)
Lemma to_f32_some n d : (0 <= n)%Z -> (0 < d)%Z -> inject_Z n / inject_Z d < 2 ^ 100 -> exists f, to_f32 n d = Some f.
Proof.
  intros Hn Hd B. unfold to_f32. destruct (Z.eqb_spec n 0) as [|Z]; [eexists; reflexivity|].
  destruct (leading_spec n d ltac:(lia) Hd) as [L _]. assert (G : (leading n d < 100)%Z).
  { apply (Qpower_lt_compat_l_inv 2); [|reflexivity]. apply Qle_lt_trans with (1 := L), B. }
  destruct (scaled _ _ _) as [a b]. replace (Z.max (leading n d - 23) (-149) <? 104)%Z with true; [eexists; reflexivity|].
  symmetry. apply Z.ltb_lt. lia.
Qed.

(* the quotient *)
Lemma f32_div_fraction x y : (0 < f_mant y)%Z ->
  let k := (f_exp x - f_exp y)%Z in
  inject_Z (f_mant x * 2 ^ Z.max 0 k) / inject_Z (f_mant y * 2 ^ Z.max 0 (- k)) == value x / value y.
Proof.
  intros Hy k. unfold value. rewrite !inject_Z_mult, !two_z by lia. pose proof (inj_pos _ Hy) as P.
  pose proof (two_pos (f_exp y)) as Py. pose proof (two_pos (Z.max 0 (- k))) as Pk. pose proof (two_pos (f_exp x)) as Px.
  assert (E : 2 ^ Z.max 0 k * 2 ^ f_exp y == 2 ^ f_exp x * 2 ^ Z.max 0 (- k)).
  { rewrite <- !two_add. replace (Z.max 0 k + f_exp y)%Z with (f_exp x + Z.max 0 (- k))%Z by (subst k; lia). reflexivity. }
  apply nz_of_pos in P, Py, Pk, Px.
  setoid_replace (inject_Z (f_mant x) * 2 ^ Z.max 0 k / (inject_Z (f_mant y) * 2 ^ Z.max 0 (- k)))
    with (inject_Z (f_mant x) * (2 ^ Z.max 0 k * 2 ^ f_exp y) / (inject_Z (f_mant y) * 2 ^ Z.max 0 (- k) * 2 ^ f_exp y)) by (field; auto).
  rewrite E. field. auto.
Qed.
Lemma pow2z_pos k : (0 < 2 ^ Z.max 0 k)%Z.
Proof. apply Z.pow_pos_nonneg; lia. Qed.
Lemma f32_div_nearest x y q : (0 <= f_mant x)%Z -> (0 < f_mant y)%Z -> f32_div x y = Some q -> nearest (value x / value y) (value q) /\ (0 <= f_mant q)%Z.
Proof.
  intros Hx Hy E. unfold f32_div in E. destruct (Z.eqb_spec (f_mant y) 0) as [|_]; [lia|].
  pose proof (pow2z_pos (f_exp x - f_exp y)). pose proof (pow2z_pos (- (f_exp x - f_exp y))).
  apply to_f32_nearest in E; [|nia|nia]. destruct E as [E M]. split; [|exact M].
  apply (nearest_eq _ _ _ _ (f32_div_fraction x y Hy) (Qeq_refl _)), E.
Qed.
Lemma f32_div_relative x y q : (0 <= f_mant x)%Z -> (0 < f_mant y)%Z -> f32_div x y = Some q ->
  Qabs (value x / value y - value q) <= value x / value y * (1 # 2 ^ 24) + (1 # 2 ^ 24).
Proof.
  intros Hx Hy E. pose proof (f32_div_fraction x y Hy) as F. cbv zeta in F. unfold f32_div in E. destruct (Z.eqb_spec (f_mant y) 0) as [|_]; [lia|].
  set (n := (f_mant x * _)%Z) in *. set (d := (f_mant y * _)%Z) in *.
  pose proof (pow2z_pos (f_exp x - f_exp y)). pose proof (pow2z_pos (- (f_exp x - f_exp y))). assert (Hn : (0 <= n)%Z) by (subst n; nia). assert (Hd : (0 < d)%Z) by (subst d; nia).
  rewrite <- F. destruct (Z.eq_dec n 0) as [Z|Z].
  - rewrite Z in *. injection E as <-. rewrite zero_value by reflexivity. unfold Qdiv. change (inject_Z 0) with 0.
    setoid_replace (0 * / inject_Z d - 0) with 0 by ring. change (Qabs 0) with 0. setoid_replace (0 * / inject_Z d * (1 # 2 ^ 24)) with 0 by ring. discriminate.
  - destruct (to_f32_rounded n d q ltac:(lia) Hd E) as [X R]. set (z := inject_Z n / inject_Z d) in *.
    assert (Pz : 0 <= z). { apply Qle_shift_div_l; [apply inj_pos, Hd|]. rewrite Qmult_0_l. apply inj_nonneg, Hn. }
    destruct (Qlt_le_dec z (2 ^ (-126))) as [S|S].
    + (* below the normal range: nearer than zero *)
      destruct (rounded_nearest _ _ _ R) as (_ & B). specialize (B 0 zero_f32). setoid_replace (z - 0) with z in B by ring. rewrite (Qabs_pos z Pz) in B.
      assert (T : 2 ^ (-126) <= 1 # 2 ^ 24) by discriminate. change (1 # 2 ^ 24) with (1 # 16777216) in *. lra.
    + pose proof (rounded_relative _ _ _ R S) as B. change (1 # 2 ^ 24) with (1 # 16777216) in *. lra.
Qed.

(* the conversion to an integer *)
Lemma u64_of_f32_floor f t : (0 <= f_mant f)%Z -> u64_of_f32 f = Some t -> inject_Z t <= value f /\ value f < inject_Z (t + 1) /\ (0 <= t)%Z.
Proof.
  intros Hm. unfold u64_of_f32. set (a := (f_mant f * 2 ^ Z.max 0 (f_exp f))%Z). set (b := (2 ^ Z.max 0 (- f_exp f))%Z).
  assert (Pb : (0 < b)%Z) by apply pow2z_pos. assert (Pa : (0 <= a)%Z) by (subst a; pose proof (pow2z_pos (f_exp f)); nia).
  destruct (Z.ltb_spec (a / b) (2 ^ 64)) as [L|L]; [|discriminate]. intro E. injection E as <-.
  assert (V : value f == inject_Z a / inject_Z b).
  { unfold value, a, b. rewrite inject_Z_mult, !two_z by lia. pose proof (two_pos (Z.max 0 (- f_exp f))) as P. apply nz_of_pos in P.
    apply (Qmult_inj_r _ _ (2 ^ Z.max 0 (- f_exp f)) P). rewrite <- Qmult_assoc, <- two_add.
    replace (f_exp f + Z.max 0 (- f_exp f))%Z with (Z.max 0 (f_exp f)) by lia. field. exact P. }
  rewrite V. split; [|split].
  - apply frac_le; [exact Pb|]. apply Z.mul_div_le, Pb.
  - apply frac_lt; [exact Pb|]. apply Z.mul_succ_div_gt, Pb.
  - apply Z.div_pos; lia.
Qed.
Lemma u64_of_f32_some f : (0 <= f_mant f)%Z -> value f < inject_Z (2 ^ 64) -> exists t, u64_of_f32 f = Some t.
Proof.
  intros Hm B. unfold u64_of_f32. destruct (Z.ltb_spec (f_mant f * 2 ^ Z.max 0 (f_exp f) / 2 ^ Z.max 0 (- f_exp f)) (2 ^ 64)) as [L|L]; [eexists; reflexivity|].
  exfalso. apply (Qlt_not_le _ _ B). set (a := (f_mant f * 2 ^ Z.max 0 (f_exp f))%Z) in *. set (b := (2 ^ Z.max 0 (- f_exp f))%Z) in *.
  assert (Pb : (0 < b)%Z) by apply pow2z_pos.
  assert (V : value f == inject_Z a / inject_Z b).
  { unfold value, a, b. rewrite inject_Z_mult, !two_z by lia. pose proof (two_pos (Z.max 0 (- f_exp f))) as P. apply nz_of_pos in P.
    apply (Qmult_inj_r _ _ (2 ^ Z.max 0 (- f_exp f)) P). rewrite <- Qmult_assoc, <- two_add.
    replace (f_exp f + Z.max 0 (- f_exp f))%Z with (Z.max 0 (f_exp f)) by lia. field. exact P. }
  rewrite V. apply frac_le; [exact Pb|]. pose proof (Z.mul_div_le a b Pb). nia.
Qed.

(* integers *)
Lemma over_one n : inject_Z n / inject_Z 1 == inject_Z n.
Proof. unfold Qdiv. change (/ inject_Z 1) with 1. ring. Qed.
Lemma f32_of_nearest n f : (0 <= n)%Z -> f32_of n = Some f -> nearest (inject_Z n) (value f) /\ (0 <= f_mant f)%Z.
Proof. intros Hn E. apply to_f32_nearest in E; [|exact Hn|lia]. destruct E as [E M]. split; [|exact M]. apply (nearest_eq _ _ _ _ (over_one n) (Qeq_refl _)), E. Qed.
Lemma f32_of_some n : (0 <= n < 2 ^ 64)%Z -> exists f, f32_of n = Some f.
Proof.
  intro H. apply to_f32_some; [lia|lia|]. rewrite over_one. apply Qlt_le_trans with (inject_Z (2 ^ 64)); [rewrite <- Zlt_Qlt; lia|discriminate].
Qed.
Lemma f32_of_relative n f : (0 <= n)%Z -> f32_of n = Some f -> within (1 # 2 ^ 24) (value f) (inject_Z n).
Proof.
  intros Hn E. unfold within. rewrite Qabs_Qminus. destruct (Z.eq_dec n 0) as [->|Z]; [injection E as <-; discriminate|].
  destruct (to_f32_rounded n 1 f ltac:(lia) ltac:(lia) E) as [X R]. pose proof (rounded_relative _ _ _ R) as B. rewrite over_one in B.
  rewrite (Qmult_comm (1 # 2 ^ 24)). apply B. apply Qle_trans with (inject_Z 1); [discriminate|]. rewrite <- Zle_Qle. lia.
Qed.
Lemma small_f32 n : (0 <= n < 2 ^ 24)%Z -> is_f32 (inject_Z n).
Proof. intro H. exists n, 0%Z. split; [lia|]. change (2 ^ 0) with 1. ring. Qed.
(* from 2^24 on, floats are integers *)
Lemma f32_of_integer n f : (0 <= n)%Z -> f32_of n = Some f -> exists z, value f == inject_Z z.
Proof.
  intros Hn E. destruct (Z_lt_dec n (2 ^ 24)) as [L|L].
  - exists n. apply nearest_exact; [apply small_f32; lia|]. exact (proj1 (f32_of_nearest n f Hn E)).
  - unfold f32_of, to_f32 in E. destruct (Z.eqb_spec n 0) as [|Z]; [lia|]. destruct (leading_spec n 1 ltac:(lia) ltac:(lia)) as [_ H].
    rewrite over_one in H. assert (G : (24 < leading n 1 + 1)%Z).
    { apply (Qpower_lt_compat_l_inv 2); [|reflexivity]. apply Qle_lt_trans with (2 := H). rewrite <- two_z by lia. rewrite <- Zle_Qle. lia. }
    destruct (scaled _ _ _) as [a b]. destruct (orb _ _); [|discriminate]. injection E as <-. unfold value. cbn [f_mant f_exp].
    set (e := Z.max _ _). assert (0 <= e)%Z by (subst e; lia). exists (nearest_int a b * 2 ^ e)%Z. rewrite inject_Z_mult, two_z by lia. reflexivity.
Qed.
(* below 2^64 - 2^39, the float is below 2^64 *)
Lemma f32_of_below n f : (0 <= n < 2 ^ 64 - 2 ^ 39)%Z -> f32_of n = Some f -> value f < inject_Z (2 ^ 64).
Proof.
  intros Hn E. destruct (f32_of_nearest n f ltac:(lia) E) as [[_ B] _]. destruct (Qlt_le_dec (value f) (inject_Z (2 ^ 64))) as [|G]; [assumption|exfalso].
  assert (W : is_f32 (inject_Z (2 ^ 64 - 2 ^ 40))) by (exists (2 ^ 24 - 1)%Z, 40%Z; split; [lia|reflexivity]).
  specialize (B _ W). assert (Hn1 : inject_Z n < inject_Z (2 ^ 64 - 2 ^ 39)) by (rewrite <- Zlt_Qlt; lia).
  rewrite Qabs_Qminus, (Qabs_pos (value f - inject_Z n)) in B.
  2: { apply Qle_trans with (inject_Z (2 ^ 64) - inject_Z (2 ^ 64 - 2 ^ 39)); [discriminate|]. lra. }
  change (inject_Z (2 ^ 64)) with (18446744073709551616 # 1) in *. change (inject_Z (2 ^ 64 - 2 ^ 39)) with (18446743523953737728 # 1) in *.
  change (inject_Z (2 ^ 64 - 2 ^ 40)) with (18446742974197923840 # 1) in *.
  destruct (Qlt_le_dec (inject_Z n) (18446742974197923840 # 1)) as [K|K].
  - rewrite Qabs_Qminus, Qabs_pos in B; lra.
  - rewrite Qabs_pos in B; lra.
Qed.
