(* Specification vocabulary for the context. *)
From Verif Require Export Model_Ctx.
Local Open Scope N_scope.

(* Memory type [i] may be used: its bit is set, and it has every required property. *)
Definition usable (types : list N) (typeBits requirements : N) (i : nat) : Prop :=
  N.testbit typeBits (N.of_nat i) = true /\
  exists f, nth_error types i = Some f /\ forall b, N.testbit requirements b = true -> N.testbit f b = true.

(* Objects: an object is a handle, a type and a name; the history of its creation and destruction. *)
Inductive life := Create (handle : N) (type name : string) | Destroy (handle : N) (type : string).
Definition recorded (l : life) : obj_op := match l with Create h t n => Register h t n | Destroy h _ => Unregister h end.
(* The objects alive after a history, in order of creation: destruction names the handle and the type. *)
Definition life_step (alive : list (N * string * string)) (l : life) : list (N * string * string) :=
  match l with
  | Create h t n => alive ++ [(h, t, n)]
  | Destroy h t => filter (fun x => negb (andb (N.eqb (fst (fst x)) h) (String.eqb (snd (fst x)) t))) alive
  end.
Definition alive_objects (ls : list life) : list (N * string * string) := fold_left life_step ls [].
(* A legal history: only living objects are destroyed, handles are not null, and a handle in use for a type is not given again
   for that type.  With [across], not for any type. *)
Definition legal_step (across : bool) (alive : list (N * string * string)) (l : life) : Prop :=
  match l with
  | Create h t _ => h <> 0 /\ forall h' t' n', In (h', t', n') alive -> h' = h -> across = false /\ t' <> t
  | Destroy h t => exists n, In (h, t, n) alive
  end.
Fixpoint legal_from (across : bool) (alive : list (N * string * string)) (ls : list life) : Prop :=
  match ls with [] => True | l :: r => legal_step across alive l /\ legal_from across (life_step alive l) r end.
Definition legal (across : bool) (ls : list life) : Prop := legal_from across [] ls.

(* Deletion queue: the functions pushed, and those called, in order. *)
Definition pushed (l : list queue_event) : list N := flat_map (fun e => match e with Pushed f => [f] | Called _ => [] end) l.
Definition called (l : list queue_event) : list N := flat_map (fun e => match e with Called f => [f] | Pushed _ => [] end) l.
