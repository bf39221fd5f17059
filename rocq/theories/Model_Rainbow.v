(* Model of the colours of the debug labels: source/RenderGraph/GraphContext.cpp:201-246, used by RunnablePass.cpp:380-386.
   `float` is binary32, rounded to nearest after each operation (Model_Float.v); a float is its value, a reduced fraction.  Only non-negative
   values occur. *)
From Coq Require Export QArith Qround.
From Verif Require Export Model_Float Model_Conc.
Local Open Scope Q_scope.

(* GraphContext.cpp:204-218: an operation on floats is the exact one, rounded *)
Definition round32 (q : Q) : Q :=
  match to_f32 (Qnum q) (Zpos (Qden q)) with Some f => Qred (inject_Z (f_mant f) * 2 ^ f_exp f) | None => 0 end.
(* 0.0125f *)
Definition hue_step : Q := round32 (125 # 10000).
(* GraphContext.cpp:204-209: the static variable *)
Definition next_hue (hue : Q) : Q :=
  let hue := round32 (hue + hue_step) in if Qle_bool hue 1 then hue else 0.
Definition ltb (a b : Q) : bool := negb (Qle_bool b a).
(* GraphContext.cpp:211-244 *)
Definition colour_of (hue : Q) : Q * Q * Q * Q :=
  let brightness := 1 in
  let saturation := 1 in
  let h := if Qeq_bool hue 1 then 0 else round32 (hue * 6) in
  let f := round32 (h - inject_Z (Qfloor h)) in
  let p := round32 (brightness * round32 (1 - saturation)) in
  let q := round32 (brightness * round32 (1 - round32 (saturation * f))) in
  let t := round32 (brightness * round32 (1 - round32 (saturation * round32 (1 - f)))) in
  if ltb h 1 then (brightness, t, p, 1)
  else if ltb h 2 then (q, brightness, p, 1)
  else if ltb h 3 then (p, brightness, t, 1)
  else if ltb h 4 then (p, q, brightness, 1)
  else if ltb h 5 then (t, p, brightness, 1)
  else (brightness, p, q, 1).
(* GraphContext.cpp:201-246: the n-th call of the program gives the colour of the n-th value of the variable *)
Fixpoint hue_after (n : nat) : Q := match n with O => 0 | S n => next_hue (hue_after n) end.
Definition label_colour (n : nat) : Q * Q * Q * Q := colour_of (hue_after (S n)).

(* GraphContext.cpp:203-209: the accesses to the static variable, container 0, which no mutex protects *)
Definition rainbow_code (c : unit) : code Q (Q * Q * Q * Q) :=
  Access 0 false (fun x => (x, x)) (fun hue =>
  Access 0 true (fun _ => (next_hue hue, tt)) (fun _ => Done (colour_of (next_hue hue)))).
