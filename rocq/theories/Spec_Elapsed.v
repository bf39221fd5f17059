(* Specification vocabulary: which measure the time of a pass comes from.  The recordings of a graph are numbered from 0, those that are
   not submitted included; the measure of a recording has its number. *)
From Verif Require Export Spec_Timer.
Local Open Scope N_scope.

(* A timer of a graph, its device and the number of recordings made *)
Definition moment := (timer * qpool * N)%type.
(* A new timer, the first recording of its graph having the number 0 *)
Definition fresh_moment (base : N) : moment := (fst (new_timer base), empty_pool, 0).
(* The measure the elapsed time would come from, were it asked now; None: it would be 0. *)
Definition shown_now (s : moment) : option N :=
  let '(t, p, _) := s in match retrieve t with (_, Some first) => p first | (_, None) => None end.
(* The measures the elapsed times come from, in the order they are asked. *)
Fixpoint shown (s : moment) (l : list gop) : list N :=
  match l with
  | [] => []
  | o :: r => match o with GRetrieve => match shown_now s with Some m => [m] | None => [] end | _ => [] end
              ++ match gop_step s o with Some s' => shown s' r | None => [] end
  end.
(* A history in which the pass is enabled at the notification only if it was enabled when recorded (else C40 is false). *)
Definition steady (l : list gop) : Prop := forall rec notified, In (GRunOp rec notified) l -> notified = true -> rec = true.
(* Frames in which the pass is disabled *)
Definition disabled_op (o : gop) : Prop := o = GRec false \/ o = GRunOp false false.
(* The number of recordings in a history *)
Fixpoint recordings (l : list gop) : N := match l with [] => 0 | GRetrieve :: r => recordings r | _ :: r => 1 + recordings r end.
