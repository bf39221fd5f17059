(* Model of signals and connections.  Source: include/RenderGraph/Signal.hpp:18-118 (SignalConnection),
   124-288 (Signal).  Functions are identifiers; signals and connection objects are designated by their
   addresses, and an address without object is a destroyed (or not yet created) one.  The mutex is not
   represented (single thread). *)
From Verif Require Export Model_Vk.
Local Open Scope N_scope.

(* Signal.hpp:284-286: m_slots, m_connections (a std::set of addresses, as a list without duplicates) *)
Record signal := { sg_slots : nmap N; sg_conns : list N }.
(* Signal.hpp:115-116: m_connection, m_signal *)
Record conn := { cn_index : N; cn_signal : option N }.
Definition null_conn : conn := {| cn_index := 0; cn_signal := None |}.
Record sworld := { w_signals : nmap signal; w_conns : nmap conn }.

Definition put_signal (w : sworld) (s : N) (g : signal) : sworld := {| w_signals := mput s g (w_signals w); w_conns := w_conns w |}.
Definition put_conn (w : sworld) (a : N) (c : conn) : sworld := {| w_signals := w_signals w; w_conns := mput a c (w_conns w) |}.

(* [None]: a destroyed object is used, or an assertion fails. *)
Definition obind {A B} (x : option A) (f : A -> option B) : option B := match x with Some a => f a | None => None end.

(* Signal.hpp:238-242: addConnection *)
Definition addConnection (w : sworld) (s a : N) : option sworld :=
  obind (mfind s (w_signals w)) (fun g =>
  Some (put_signal w s {| sg_slots := sg_slots g; sg_conns := if existsb (N.eqb a) (sg_conns g) then sg_conns g else a :: sg_conns g |})).
(* Signal.hpp:249-254: remConnection, with its assertion *)
Definition remConnection (w : sworld) (s a : N) : option sworld :=
  obind (mfind s (w_signals w)) (fun g =>
  if existsb (N.eqb a) (sg_conns g)
  then Some (put_signal w s {| sg_slots := sg_slots g; sg_conns := filter (fun x => negb (N.eqb x a)) (sg_conns g) |})
  else None).
(* Signal.hpp:223-231: Signal::disconnect *)
Definition sig_disconnect (w : sworld) (s index : N) : option sworld :=
  obind (mfind s (w_signals w)) (fun g =>
  Some (put_signal w s {| sg_slots := merase index (sg_slots g); sg_conns := sg_conns g |})).
(* Signal.hpp:75-84: SignalConnection::disconnect *)
Definition con_disconnect (w : sworld) (a : N) : option sworld :=
  obind (mfind a (w_conns w)) (fun c =>
  match cn_signal c with
  | Some s => if N.eqb (cn_index c) 0 then Some w
              else obind (sig_disconnect w s (cn_index c)) (fun w =>
                   obind (remConnection w s a) (fun w => Some (put_conn w a null_conn)))
  | None => Some w
  end).
(* Signal.hpp:92-114: swap *)
Definition when_signal (o : option N) (f : N -> option sworld) (w : sworld) : option sworld :=
  match o with Some s => f s | None => Some w end.
Definition con_swap (w : sworld) (l r : N) : option sworld :=
  obind (mfind l (w_conns w)) (fun cl =>
  obind (mfind r (w_conns w)) (fun cr =>
  obind (when_signal (cn_signal cl) (fun s => remConnection w s l) w) (fun w =>
  obind (when_signal (cn_signal cr) (fun s => remConnection w s r) w) (fun w =>
  let w := put_conn (put_conn w l cr) r cl in
  obind (when_signal (cn_signal cr) (fun s => addConnection w s l) w) (fun w =>
  when_signal (cn_signal cl) (fun s => addConnection w s r) w))))).

(* Signal.hpp:42-45: default constructor *)
Definition con_default (w : sworld) (a : N) : option sworld := Some (put_conn w a null_conn).
(* Signal.hpp:47-51: move constructor of [a] from [b] *)
Definition con_move (w : sworld) (a b : N) : option sworld := con_swap (put_conn w a null_conn) a b.
(* Signal.hpp:66-69: destructor *)
Definition con_destroy (w : sworld) (a : N) : option sworld :=
  obind (con_disconnect w a) (fun w => Some {| w_signals := w_signals w; w_conns := merase a (w_conns w) |}).
(* Signal.hpp:59-64: move assignment of [a] from [b]; [tmp] is the address of the local object *)
Definition con_assign (w : sworld) (a b tmp : N) : option sworld :=
  obind (con_move w tmp b) (fun w =>
  obind (con_swap w a tmp) (fun w => con_destroy w tmp)).
(* Signal.hpp:170-175 and 53-57: connect; the returned object is [a] *)
Definition sig_connect (w : sworld) (s a f : N) : option sworld :=
  obind (mfind s (w_signals w)) (fun g =>
  let index := u32 (u32 (N.of_nat (msize (sg_slots g))) + 1) in
  let w := put_signal w s {| sg_slots := minsert index f (sg_slots g); sg_conns := sg_conns g |} in
  addConnection (put_conn w a {| cn_index := index; cn_signal := Some s |}) s a).
(* Signal.hpp:145-159: destructor; the loop is bounded by the number of connections it starts with: running
   out of turns stands for a loop that does not end *)
Fixpoint sig_kill_loop (turns : nat) (w : sworld) (s : N) : option sworld :=
  obind (mfind s (w_signals w)) (fun g =>
  match sg_conns g, turns with
  | [], _ => Some w
  | _, O => None
  | a :: _, S n => obind (con_disconnect w a) (fun w => sig_kill_loop n w s)
  end).
Definition sig_destroy (w : sworld) (s : N) : option sworld :=
  obind (mfind s (w_signals w)) (fun g =>
  obind (sig_kill_loop (length (sg_conns g)) w s) (fun w =>
  Some {| w_signals := merase s (w_signals w); w_conns := w_conns w |})).
Definition sig_create (w : sworld) (s : N) : option sworld := Some (put_signal w s {| sg_slots := []; sg_conns := [] |}).

Inductive sop :=
| SigCreate (s : N)
| SigDestroy (s : N)
| SigConnect (s a f : N)      (* SignalConnection a = s.connect( f ) *)
| ConDefault (a : N)
| ConMove (a b : N)           (* SignalConnection a{ std::move( b ) } *)
| ConAssign (a b tmp : N)     (* a = std::move( b ) *)
| ConDisconnect (a : N)
| ConDestroy (a : N).
Definition sop_step (w : sworld) (o : sop) : option sworld :=
  match o with
  | SigCreate s => sig_create w s
  | SigDestroy s => sig_destroy w s
  | SigConnect s a f => sig_connect w s a f
  | ConDefault a => con_default w a
  | ConMove a b => con_move w a b
  | ConAssign a b tmp => con_assign w a b tmp
  | ConDisconnect a => con_disconnect w a
  | ConDestroy a => con_destroy w a
  end.
Fixpoint sops (w : sworld) (l : list sop) : option sworld :=
  match l with [] => Some w | o :: r => obind (sop_step w o) (fun w => sops w r) end.
Definition empty_world : sworld := {| w_signals := []; w_conns := [] |}.

(* Signal.hpp:179-210, 263-281: emission.  [act f n w] is what function [f] does to the world when it is
   called, [n] functions having been called before in this emission.  [emit_loop] follows the iterator:
   [it] is the key it points to, [None] at the end.  Results: finished with the functions called, an
   iterator that is not valid is used, or not finished after [fuel] calls. *)
Inductive emitted := Finished (calls : list N) (w : sworld) | BadIterator | NotFinished (calls : list N).
Fixpoint next_key (k : N) (l : nmap N) : option N :=
  match l with [] => None | (k', _) :: r => if N.ltb k k' then Some k' else next_key k r end.
Fixpoint emit_loop (fuel : nat) (act : N -> nat -> sworld -> sworld) (s : N) (w : sworld) (size index : nat) (it : option N)
    (calls : list N) : emitted :=
  match it with
  | None => Finished calls w
  | Some k =>
      match fuel with
      | O => NotFinished calls
      | S n =>
          match obind (mfind s (w_signals w)) (fun g => mfind k (sg_slots g)) with
          | None => BadIterator
          | Some f =>
              let w := act f (length calls) w in
              match mfind s (w_signals w) with
              | None => BadIterator
              | Some g =>
                  let calls := calls ++ [f] in
                  if Nat.eqb size (msize (sg_slots g))
                  then match mfind k (sg_slots g) with
                       | None => BadIterator
                       | Some _ => emit_loop n act s w size (S index) (next_key k (sg_slots g)) calls
                       end
                  else if Nat.ltb (msize (sg_slots g)) index then BadIterator
                  else emit_loop n act s w (msize (sg_slots g)) index (option_map fst (nth_error (sg_slots g) index)) calls
              end
          end
      end
  end.
Definition emit (fuel : nat) (act : N -> nat -> sworld -> sworld) (w : sworld) (s : N) : emitted :=
  match mfind s (w_signals w) with
  | None => BadIterator
  | Some g => emit_loop fuel act s w (msize (sg_slots g)) 0 (option_map fst (nth_error (sg_slots g) 0)) []
  end.
