(* Model of the context: memory types, registry of the objects and deletion queue.
   Sources: source/RenderGraph/GraphContext.cpp:148-160, 247-264, 305-334, 362-388,
   include/RenderGraph/GraphContext.hpp:347-368, 530. *)
From Verif Require Export Model_Vk.
From Coq Require Export String.
Local Open Scope N_scope.

(* GraphContext.cpp:247-264: deduceMemoryType; [types] are the property flags of the memory types.  None: the exception. *)
Fixpoint deduce_from (i : N) (types : list N) (typeBits requirements : N) : option N :=
  match types with
  | [] => None
  | f :: r => if andb (N.eqb (N.land typeBits 1) 1) (N.eqb (N.land f requirements) requirements) then Some i
              else deduce_from (u32 (i + 1)) r (N.shiftr typeBits 1) requirements
  end.
Definition deduceMemoryType (types : list N) (typeBits requirements : N) : option N := deduce_from 0 types typeBits requirements.

(* GraphContext.cpp:305-334, 362-388: doRegisterObject, doUnregisterObject on m_allocated, keyed by the 64-bit handle;
   an allocation is (type, name), the call stack is not represented. *)
Inductive obj_op := Register (handle : N) (type name : string) | Unregister (handle : N).
Definition reg_step (m : nmap (string * string)) (o : obj_op) : nmap (string * string) :=
  match o with
  | Register h t n => mput h (t, n) m
  | Unregister h => if N.eqb h 0 then m else merase h m
  end.
Definition registry (ops : list obj_op) : nmap (string * string) := fold_left reg_step ops [].
(* GraphContext.cpp:148-160: what the destructor reports *)
Definition leak_report (ops : list obj_op) : list (string * string) := map snd (registry ops).

(* GraphContext.hpp:347-368: DeletionQueue.  A function is a number; [pushes f] are the functions it pushes when it is called.
   The vector is moved out before the loop: what is pushed meanwhile waits for the next clear.  [qs_log] is what happened:
   pushes and calls. *)
Inductive queue_op := Push (f : N) | Clear.
Inductive queue_event := Pushed (f : N) | Called (f : N).
Record queue_state := { qs_queue : list N; qs_log : list queue_event }.
Definition queue_push (s : queue_state) (f : N) : queue_state := {| qs_queue := qs_queue s ++ [f]; qs_log := qs_log s ++ [Pushed f] |}.
Definition queue_call (pushes : N -> list N) (s : queue_state) (f : N) : queue_state :=
  fold_left queue_push (pushes f) {| qs_queue := qs_queue s; qs_log := qs_log s ++ [Called f] |}.
Definition queue_step (pushes : N -> list N) (s : queue_state) (o : queue_op) : queue_state :=
  match o with
  | Push f => queue_push s f
  | Clear => fold_left (queue_call pushes) (qs_queue s) {| qs_queue := []; qs_log := qs_log s |}
  end.
Definition queue_run (pushes : N -> list N) (s : queue_state) (ops : list queue_op) : queue_state := fold_left (queue_step pushes) ops s.
Definition new_queue : queue_state := {| qs_queue := []; qs_log := [] |}.
