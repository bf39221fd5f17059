(* Specification of binary32 rounding. *)
From Verif Require Export Model_Float.
From Coq Require Export QArith Qabs.
Local Open Scope Q_scope.

(* The finite floats which are not negative: 24 bits of mantissa, exponents from -149 to 104. *)
Definition is_f32 (q : Q) : Prop := exists m e : Z, (0 <= m < 2 ^ 24 /\ -149 <= e <= 104)%Z /\ q == inject_Z m * 2 ^ e.
Definition value (x : f32) : Q := inject_Z (f_mant x) * 2 ^ f_exp x.
(* [v] is a float, and none is nearer to [x]. *)
Definition nearest (x v : Q) : Prop := is_f32 v /\ forall w, is_f32 w -> Qabs (x - v) <= Qabs (x - w).
(* [x] is within [k] times [y] of [y] *)
Definition within (k x y : Q) : Prop := Qabs (x - y) <= k * y.
