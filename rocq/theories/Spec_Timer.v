(* Specification vocabulary for GPU timers. *)
From Verif Require Export Model_Timer Spec_Float.
Local Open Scope N_scope.

(* Queries an event touches. *)
Definition touches (e : tevent) (q : N) : Prop :=
  match e with
  | ECmd (QReset f n) => f <= q < f + n
  | ECmd (QWrite i) => q = i
  | ERead f => f <= q < f + 2
  end.

(* The query pool of the device: the number of the measure whose timestamp is available in a query. *)
Definition qpool := N -> option N.
Definition q_exec (measure : N) (p : qpool) (c : qcmd) : qpool :=
  match c with
  | QReset f n => fun q => if andb (N.leb f q) (N.ltb q (f + n)) then None else p q
  | QWrite i => fun q => if N.eqb q i then Some measure else p q
  end.
Definition q_exec_all (measure : N) (p : qpool) (l : list qcmd) : qpool := fold_left (q_exec measure) l p.

(* The life of a timer with its device.  [None] as soon as the host reads a pair of queries which does
   not hold the two timestamps of one completed measure: the call would never return, or mix measures. *)
Definition gop_step (s : timer * qpool * N) (o : gop) : option (timer * qpool * N) :=
  let '(t, p, n) := s in
  match o with
  | GRec en => Some (fst (rec_cmds t en), p, n + 1)
  | GRunOp en no =>
      let '(t, l) := rec_cmds t en in
      Some (if no then notifyPassRender t else t, q_exec_all n p l, n + 1)
  | GRetrieve =>
      match retrieve t with
      | (t', None) => Some (t', p, n)
      | (t', Some o) => match p o, p (o + 1) with
                        | Some a, Some b => if N.eqb a b then Some (t', p, n) else None
                        | _, _ => None
                        end
      end
  end.
Fixpoint gops (s : timer * qpool * N) (l : list gop) : option (timer * qpool * N) :=
  match l with
  | [] => Some s
  | o :: r => match gop_step s o with Some s' => gops s' r | None => None end
  end.
Definition empty_pool : qpool := fun _ => None.

(* Nanoseconds between two ticks of the device: number of ticks times the period. *)
Definition expected_time (period : f32) (first second : N) : Q := (inject_Z (Z.of_N (second - first)) * value period)%Q.
(* [t] as a rational *)
Definition as_q (t : N) : Q := inject_Z (Z.of_N t).
