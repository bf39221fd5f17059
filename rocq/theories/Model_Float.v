(* The binary32 arithmetic of FramePassTimer.cpp:129, 147: `float` is IEEE 754 binary32 with the default rounding, to nearest, ties to even
   (C++ leaves both to the implementation; this is what the supported targets have).  Only non-negative values occur. *)
From Coq Require Export ZArith Bool.
Local Open Scope Z_scope.

(* a positive or null finite float: the mantissa times a power of two *)
Record f32 := { f_mant : Z; f_exp : Z }.

(* n / d divided by 2^e, as a fraction *)
Definition scaled (n d e : Z) : Z * Z := (n * 2 ^ Z.max 0 (- e), d * 2 ^ Z.max 0 e).
(* the exponent of the leading bit of n / d *)
Definition leading (n d : Z) : Z :=
  let k := Z.log2 n - Z.log2 d in
  let '(a, b) := scaled n d k in if b <=? a then k else k - 1.
(* rounding of a / b to an integer, to nearest, ties to even *)
Definition nearest_int (a b : Z) : Z :=
  let q := a / b in let r := a mod b in
  if 2 * r <? b then q else if b <? 2 * r then q + 1 else if Z.even q then q else q + 1.
(* FramePassTimer.cpp:147: rounding of n / d to a float; None: infinity *)
Definition to_f32 (n d : Z) : option f32 :=
  if n =? 0 then Some {| f_mant := 0; f_exp := 0 |} else
  let e := Z.max (leading n d - 23) (- 149) in
  let '(a, b) := scaled n d e in
  let m := nearest_int a b in
  if orb (e <? 104) (andb (e =? 104) (m <? 2 ^ 24)) then Some {| f_mant := m; f_exp := e |} else None.
(* FramePassTimer.cpp:147: the conversion of an integer, the quotient of two floats (a null divisor gives an infinity or not-a-number) *)
Definition f32_of (n : Z) : option f32 := to_f32 n 1.
Definition f32_div (x y : f32) : option f32 :=
  if f_mant y =? 0 then None else
  let k := f_exp x - f_exp y in
  to_f32 (f_mant x * 2 ^ Z.max 0 k) (f_mant y * 2 ^ Z.max 0 (- k)).
(* FramePassTimer.cpp:147: the conversion to uint64_t drops the fraction; it is undefined (None) when the result is not representable *)
Definition u64_of_f32 (x : f32) : option Z :=
  let t := f_mant x * 2 ^ Z.max 0 (f_exp x) / 2 ^ Z.max 0 (- f_exp x) in
  if t <? 2 ^ 64 then Some t else None.
