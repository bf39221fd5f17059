(* Specification vocabulary for the geometry of the quad passes. *)
From Verif Require Export Model_Quad.
From Coq Require Export ZArith QArith.
Local Open Scope Q_scope.

(* The screen in normalised device coordinates. *)
Definition on_screen (x y : Q) : Prop := -(1) <= x /\ x <= 1 /\ -(1) <= y /\ y <= 1.
(* (x, y) is inside of the triangle with these corners: its barycentric coordinates are not negative. *)
Definition in_triangle (p1 p2 p3 : Z * Z) (x y : Q) : Prop := exists a b c, 0 <= a /\ 0 <= b /\ 0 <= c /\ a + b + c == 1 /\
  x == a * inject_Z (fst p1) + b * inject_Z (fst p2) + c * inject_Z (fst p3) /\
  y == a * inject_Z (snd p1) + b * inject_Z (snd p2) + c * inject_Z (snd p3).
