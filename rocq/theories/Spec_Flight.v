(* Specification vocabulary: render passes and framebuffers the device may be using. *)
From Verif Require Export Model_Flight.
Local Open Scope N_scope.

(* The render passes and framebuffers named by the commands in the command buffer of the graph, and those the device may be using:
   the ones of the submissions whose fence was not waited for. *)
Definition fstate := (list N * list N)%type.
Definition fnext (s : fstate) (x : fevent) : fstate :=
  match x with
  | GReset => ([], snd s)
  | GTarget true (TBegin r f _ _) => (fst s ++ [r; f], snd s)
  | GTarget _ _ => s
  | GSubmit => (fst s, snd s ++ fst s)
  | GWaited => (fst s, [])
  end.
Definition in_buffer (log : list fevent) : list N := fst (fold_left fnext log ([], [])).
Definition in_flight (log : list fevent) : list N := snd (fold_left fnext log ([], [])).
Definition target_events (log : list fevent) : list tevent := flat_map (fun x => match x with GTarget _ y => [y] | _ => [] end) log.
(* Nothing the device may be using is destroyed, and what is submitted exists. *)
Definition flight_safe (log : list fevent) : Prop :=
  (forall l1 own x l2 h, log = l1 ++ GTarget own x :: l2 -> In h (destroyed_by x) -> ~ In h (in_flight l1)) /\
  (forall l1 l2 h, log = l1 ++ GSubmit :: l2 -> In h (in_buffer l1) -> In h (made (target_events l1)) /\ ~ In h (destroyed (target_events l1))).

(* The user waits for the graph before destroying it. *)
Fixpoint settled (ops : list fop) (idle : bool) : Prop :=
  match ops with
  | [] => True
  | FlRun _ _ :: r => settled r false
  | FlRecord _ _ :: r | FlWait :: r => settled r true
  | FlReRecord _ :: r => settled r idle
  | FlDestroy :: r => idle = true /\ settled r idle
  end.
(* The recordings of an operation (of a disabled pass too). *)
Definition uses_of (o : fop) : list use := match o with FlRecord _ u | FlRun _ u | FlReRecord u => [u] | _ => [] end.
Definition index_of (u : use) : nat := rp_index (us_pass u).
Definition indices_fit (count : nat) (ops : list fop) : Prop := forall o u, In o ops -> In u (uses_of o) -> (index_of u < count)%nat.
(* The context last saved for an index (RunnablePass.cpp:367-370); a re-recording starts from it. *)
Definition save (index : nat) (r : option rctx) (o : fop) : option rctx :=
  match uses_of o with u :: _ => if Nat.eqb (index_of u) index then Some (us_ctx u) else r | [] => r end.
Definition last_saved (index : nat) (ops : list fop) : option rctx := fold_left (save index) ops None.
Definition saved_contexts (ops : list fop) : Prop := forall before u after, ops = before ++ FlReRecord u :: after -> last_saved (index_of u) before = Some (us_ctx u).
(* The attachments that are rendered to are declared as inputs too, on distinct regions. *)
Definition loaded_targets (p : rpass) : Prop :=
  (forall a, In a (targets p) -> isInput a = true /\ view_ok (attach_view a (rp_index p)) /\ v_source (attach_view a (rp_index p)) = []) /\
  pairwise (fun a b => separate_views (attach_view a (rp_index p)) (attach_view b (rp_index p))) (targets p).
(* All those of the passes recorded for the index of a re-recording. *)
Definition re_records_loaded (ops : list fop) : Prop := forall u o v, In (FlReRecord u) ops -> In o ops -> In v (uses_of o) -> index_of v = index_of u -> loaded_targets (us_pass v).
