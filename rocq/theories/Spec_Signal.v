(* Specification of signals: what is connected, said without indices.  Every call to connect makes one
   token; a connection object holds at most one token. *)
From Verif Require Export Model_Signal.
Local Open Scope N_scope.

(* A token: its identity, its signal, its function, and how many functions the signal had just after it was
   connected. *)
Record token := { tk_id : nat; tk_signal : N; tk_fun : N; tk_num : N }.
Record ideal := { id_signals : list N; id_live : list token; id_holds : nmap (option nat); id_next : nat }.
Definition no_signal : ideal := {| id_signals := []; id_live := []; id_holds := []; id_next := 0 |}.

Definition of_signal (s : N) (live : list token) : list token := filter (fun t => N.eqb (tk_signal t) s) live.
(* The functions an emission must call, in connection order. *)
Definition expected_calls (i : ideal) (s : N) : list N := map tk_fun (of_signal s (id_live i)).

Definition drop_token (t : option nat) (live : list token) : list token :=
  match t with Some n => filter (fun x => negb (Nat.eqb (tk_id x) n)) live | None => live end.
Definition held (i : ideal) (a : N) : option nat := match mfind a (id_holds i) with Some o => o | None => None end.
(* Token ids of a signal are released by whoever holds them. *)
Definition release (gone : list token) (holds : nmap (option nat)) : nmap (option nat) :=
  map (fun e => (fst e, match snd e with Some n => if existsb (fun t => Nat.eqb (tk_id t) n) gone then None else Some n | None => None end)) holds.

Definition ideal_step (i : ideal) (o : sop) : ideal :=
  match o with
  | SigCreate s => {| id_signals := s :: id_signals i; id_live := id_live i; id_holds := id_holds i; id_next := id_next i |}
  | SigDestroy s =>
      {| id_signals := filter (fun x => negb (N.eqb x s)) (id_signals i);
         id_live := filter (fun t => negb (N.eqb (tk_signal t) s)) (id_live i);
         id_holds := release (of_signal s (id_live i)) (id_holds i); id_next := id_next i |}
  | SigConnect s a f =>
      let t := {| tk_id := id_next i; tk_signal := s; tk_fun := f; tk_num := N.of_nat (length (of_signal s (id_live i))) + 1 |} in
      {| id_signals := id_signals i; id_live := id_live i ++ [t]; id_holds := mput a (Some (id_next i)) (id_holds i); id_next := S (id_next i) |}
  | ConDefault a => {| id_signals := id_signals i; id_live := id_live i; id_holds := mput a None (id_holds i); id_next := id_next i |}
  | ConMove a b => {| id_signals := id_signals i; id_live := id_live i; id_holds := mput b None (mput a (held i b) (id_holds i)); id_next := id_next i |}
  | ConAssign a b _ =>
      if N.eqb a b then i
      else {| id_signals := id_signals i; id_live := drop_token (held i a) (id_live i);
              id_holds := mput b None (mput a (held i b) (id_holds i)); id_next := id_next i |}
  | ConDisconnect a =>
      {| id_signals := id_signals i; id_live := drop_token (held i a) (id_live i); id_holds := mput a None (id_holds i); id_next := id_next i |}
  | ConDestroy a =>
      {| id_signals := id_signals i; id_live := drop_token (held i a) (id_live i); id_holds := merase a (id_holds i); id_next := id_next i |}
  end.

(* What C++ asks of the user: objects are created where there is none, and used or destroyed where there is one. *)
Definition living (i : ideal) (a : N) : Prop := mfind a (id_holds i) <> None.
Definition legal (i : ideal) (o : sop) : Prop :=
  match o with
  | SigCreate s => ~ In s (id_signals i)
  | SigDestroy s => In s (id_signals i)
  | SigConnect s a _ => In s (id_signals i) /\ ~ living i a
  | ConDefault a => ~ living i a
  | ConMove a b => ~ living i a /\ living i b
  | ConAssign a b tmp => living i a /\ living i b /\ ~ living i tmp
  | ConDisconnect a | ConDestroy a => living i a
  end.
Fixpoint legal_all (i : ideal) (l : list sop) : Prop :=
  match l with [] => True | o :: r => legal i o /\ legal_all (ideal_step i o) r end.
(* Fewer than 2^32 - 1 calls to connect. *)
Definition few_connects (l : list sop) : Prop :=
  N.of_nat (length (filter (fun o => match o with SigConnect _ _ _ => true | _ => false end) l)) < 2 ^ 32 - 1.
Definition ideal_of (l : list sop) : ideal := fold_left ideal_step l no_signal.

(* A function is connected when the signal has no fewer functions than it had when any function still
   connected was connected (counting that one).  True as long as functions are disconnected in the
   reverse order of their connection, or nothing is connected after a disconnection. *)
Definition no_hole (i : ideal) (o : sop) : Prop :=
  match o with
  | SigConnect s _ _ => forall t, In t (of_signal s (id_live i)) -> tk_num t <= N.of_nat (length (of_signal s (id_live i)))
  | _ => True
  end.
Fixpoint no_hole_all (i : ideal) (l : list sop) : Prop :=
  match l with [] => True | o :: r => no_hole i o /\ no_hole_all (ideal_step i o) r end.

(* What is connected to a signal of the program: its functions by number. *)
Definition slots_of (w : sworld) (s : N) : option (nmap N) := option_map sg_slots (mfind s (w_signals w)).
(* Functions that connect and disconnect nothing while they are called. *)
Definition calm (act : N -> nat -> sworld -> sworld) (s : N) : Prop := forall f n w, slots_of (act f n w) s = slots_of w s.
(* Functions that, while they are called, disconnect themselves or nothing. *)
Definition only_itself (act : N -> nat -> sworld -> sworld) (s : N) : Prop := forall f n w m, slots_of w s = Some m ->
  slots_of (act f n w) s = Some m \/ exists k, mfind k m = Some f /\ slots_of (act f n w) s = Some (merase k m).
(* A function that does these operations each time it is called. *)
Definition does (table : N -> list sop) : N -> nat -> sworld -> sworld :=
  fun f _ w => match sops w (table f) with Some w' => w' | None => w end.
