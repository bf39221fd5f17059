(* Specification vocabulary for threads: races, deadlocks, and calls that take effect at one instant. *)
From Verif Require Export Model_Conc.
Local Open Scope N_scope.

Section Spec.
Context {cell call result : Type}.
Notation Code := (code cell result).
Notation Machine := (machine cell result).

(* The shared container the next instruction accesses, and whether it writes it. *)
Definition next_access (k : Code) : option (N * bool) := match k with Access c w _ _ => Some (c, w) | _ => None end.
(* Two threads are about to access the same container, and one of them writes. *)
Definition race (M : Machine) : Prop := exists t1 t2 th1 th2 k1 k2 c w1 w2, t1 <> t2 /\
  nth_error (mc_threads M) t1 = Some th1 /\ th_code th1 = Some k1 /\ next_access k1 = Some (c, w1) /\
  nth_error (mc_threads M) t2 = Some th2 /\ th_code th2 = Some k2 /\ next_access k2 = Some (c, w2) /\ orb w1 w2 = true.
(* No call is in progress. *)
Definition quiet (M : Machine) : Prop := forall th, In th (mc_threads M) -> th_code th = None.

Context (body : call -> Code) (client : nat -> list result -> option call) (supply : nat -> nat -> option N).

(* What a method does when no other thread runs. *)
Fixpoint alone (t : nat) (k : Code) (s : N -> cell) (log : list event) (used : nat) : (N -> cell) * list event * nat * result :=
  match k with
  | Done r => (s, log, used, r)
  | Acquire _ k | Release _ k => alone t k s log used
  | Access c w f k => let (x, v) := f (s c) in alone t (k v) (if w then put_cell s c x else s) log used
  | Make o k => alone t (k (supply t used)) s (log ++ made o (supply t used)) (S used)
  | Free h k => alone t k s (log ++ [Destroyed h]) used
  end.

(* A machine whose calls are instantaneous: a call begins, then at some instant it makes the whole of its effect, then it ends. *)
Inductive phase := Idle | Called (c : call) | Answered (r : result).
Record athread := { at_phase : phase; at_results : list result; at_log : list event; at_used : nat }.
Record amachine := { am_cells : N -> cell; am_threads : list athread }.
Definition put_athread (l : list athread) (t : nat) (th : athread) : list athread := firstn t l ++ th :: skipn (S t) l.
Definition astep (t : nat) (A : amachine) : option (amachine * list (label call result)) :=
  match nth_error (am_threads A) t with
  | None => None
  | Some th =>
      match at_phase th with
      | Idle =>
          match client t (at_results th) with
          | None => None
          | Some c => Some ({| am_cells := am_cells A; am_threads := put_athread (am_threads A) t {| at_phase := Called c; at_results := at_results th; at_log := at_log th; at_used := at_used th |} |}, [Begins t c])
          end
      | Called c =>
          let '(s, log, used, r) := alone t (body c) (am_cells A) (at_log th) (at_used th) in
          Some ({| am_cells := s; am_threads := put_athread (am_threads A) t {| at_phase := Answered r; at_results := at_results th; at_log := log; at_used := used |} |}, [])
      | Answered r => Some ({| am_cells := am_cells A; am_threads := put_athread (am_threads A) t {| at_phase := Idle; at_results := at_results th ++ [r]; at_log := at_log th; at_used := at_used th |} |}, [Ends t r])
      end
  end.
Fixpoint arun (sched : list nat) (A : amachine) : amachine * list (label call result) :=
  match sched with
  | [] => (A, [])
  | t :: rest =>
      match astep t A with
      | None => arun rest A
      | Some (A', l) => let (A2, l2) := arun rest A' in (A2, l ++ l2)
      end
  end.
Definition idle_athread : athread := {| at_phase := Idle; at_results := []; at_log := []; at_used := 0 |}.
Definition astart (s : N -> cell) (n : nat) : amachine := {| am_cells := s; am_threads := repeat idle_athread n |}.
End Spec.
Arguments phase : clear implicits.
Arguments athread : clear implicits.
Arguments amachine : clear implicits.

(* The sequential model of the handler (Model_Res.v) seen as containers, and its methods. *)
Definition cells_of (m : idmaps) (h : rhandler) : N -> hcell := fun c =>
  if N.eqb c K_IMAGE_IDS then HImageIds (im_images m) else if N.eqb c K_VIEW_IDS then HViewIds (im_views m) else if N.eqb c K_IMAGES then HImages (rh_images h)
  else if N.eqb c K_VIEWS then HViews (rh_views h) else if N.eqb c K_SAMPLERS then HSamplers (rh_samplers h) else HBuffers (rh_buffers h).
Definition sequential (m : idmaps) (h : rhandler) (c : hcall) : idmaps * rhandler * hresult :=
  match c with
  | HCreateImageId img => let (m', r) := createImageId m img in (m', h, GaveImage r)
  | HCreateViewId v => let (m', r) := createViewId m v in (m', h, GaveView r)
  | HCreateImage device img => let '(h', (vk, created)) := rh_createImage h device img in (m, h', Gave vk created)
  | HCreateView device v img => let '(h', (vk, created)) := rh_createImageView h device v img in (m, h', Gave vk created)
  | HCreateSampler d => let (h', vk) := rh_createSampler h d in (m, h', Gave vk true)
  | HCreateQuad device q => let (h', vk) := rh_createQuad h device q in (m, h', Gave vk true)
  | HDestroyImage img => (m, rh_destroyImage h img, Nothing)
  | HDestroyView v => (m, rh_destroyImageView h v, Nothing)
  | HDestroySampler s => (m, rh_destroySampler h s, Nothing)
  | HDestroyBuffer b => (m, rh_destroyVertexBuffer h b, Nothing)
  end.

(* What is seen of an execution. *)
Definition calls_of {call result} (t : nat) (l : list (label call result)) : list call :=
  flat_map (fun x => match x with Begins u c => if Nat.eqb t u then [c] else [] | _ => [] end) l.
Definition results_of {call result} (t : nat) (l : list (label call result)) : list result :=
  flat_map (fun x => match x with Ends u r => if Nat.eqb t u then [r] else [] | _ => [] end) l.
Definition all_results {call result} (l : list (label call result)) : list result := flat_map (fun x => match x with Ends _ r => [r] | _ => [] end) l.
Definition given_images (l : list hresult) : list image := flat_map (fun r => match r with GaveImage i => [i] | _ => [] end) l.
Definition given_views (l : list hresult) : list view := flat_map (fun r => match r with GaveView v => [v] | _ => [] end) l.
(* The r-th call of a thread and its result. *)
Definition answered {call result} (l : list (label call result)) (t : nat) (c : call) (r : result) : Prop :=
  exists i, nth_error (calls_of t l) i = Some c /\ nth_error (results_of t l) i = Some r.
Definition begun {call result} (l : list (label call result)) : nat := length (flat_map (fun x : label call result => match x with Begins _ _ => [tt] | _ => [] end) l).
(* What the threads asked the driver. *)
Definition driver_calls {cell result} (M : machine cell result) : list event := flat_map th_log (mc_threads M).

(* A sequential history: calls made one after the other, with the thread and the result of each. *)
Section Serial.
Context {cell call result : Type} (body : call -> code cell result) (supply : nat -> nat -> option N) (s0 : N -> cell).
Definition put_log (lg : nat -> list event * nat) (t : nat) (x : list event * nat) : nat -> list event * nat := fun u => if Nat.eqb t u then x else lg u.
Inductive serial : list (nat * (call * result)) -> (N -> cell) -> (nat -> list event * nat) -> Prop :=
| serial_nil : serial [] s0 (fun _ => ([], O))
| serial_call hist s lg t c s' log' used' r : serial hist s lg ->
    alone supply t (body c) s (fst (lg t)) (snd (lg t)) = (s', log', used', r) -> serial (hist ++ [(t, (c, r))]) s' (put_log lg t (log', used')).
End Serial.
(* The calls of one thread in a history. *)
Definition of_thread {B} (t : nat) (hist : list (nat * B)) : list B := flat_map (fun x => if Nat.eqb t (fst x) then [snd x] else []) hist.
