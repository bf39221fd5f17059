(* Specification vocabulary for pipelines, descriptors and the deletion queue. *)
From Verif Require Export Model_Pipe Spec_Record.
Local Open Scope N_scope.

Definition kind_eqb (a b : kind) : bool :=
  match a, b with KPipeline, KPipeline | KPool, KPool | KSetLayout, KSetLayout | KLayout, KLayout => true | _, _ => false end.

(* The objects of one kind that exist after some calls to the driver: None when an object is created
   twice or destroyed without existing. *)
Definition alive_step (k : kind) (l : list N) (e : pevent) : option (list N) :=
  match e with
  | PCreated k' h => if kind_eqb k k' then (if existsb (N.eqb h) l then None else Some (h :: l)) else Some l
  | PDestroyed k' h => if kind_eqb k k' then (if existsb (N.eqb h) l then Some (remove N.eq_dec h l) else None) else Some l
  | _ => Some l
  end.
Fixpoint alive_from (k : kind) (l : list N) (log : list pevent) : option (list N) :=
  match log with [] => Some l | e :: r => match alive_step k l e with Some l => alive_from k l r | None => None end end.
Definition alive_after (k : kind) (log : list pevent) : option (list N) := alive_from k [] log.
Definition calls (ops : list pop) : list pevent := dr_log (pw_driver (prun new_pworld ops)).

(* Everything was given back: no pass is left and the deletion queue was cleared since the last reset. *)
Definition all_closed (ops : list pop) : Prop :=
  pw_passes (prun new_pworld ops) = [] /\ dr_queue (pw_driver (prun new_pworld ops)) = [].

(* Sane uses: the number of programs is one or covers the pass indices, which stay below their maximum;
   the first recording of a quad or mesh makes a render pass, and render passes are not null. *)
Definition pass_index_ok (w : pworld) (id : N) (index : nat) : Prop :=
  forall p, mfind id (pw_passes w) = Some p -> (index < length (ho_sets (pp_holder p)))%nat.
Definition record_sane (w : pworld) (id : N) (index : nat) (rp : option N) : Prop :=
  pass_index_ok w id index /\
  (forall p, mfind id (pw_passes w) = Some p -> pp_kind p <> Compute -> pp_prepared p = false -> rp <> None) /\
  (forall n, rp = Some n -> n <> 0).
Fixpoint records_sane (w : pworld) (l : list (N * nat * option N)) : Prop :=
  match l with [] => True | (id, i, rp) :: r => record_sane w id i rp /\ records_sane (fst (do_record w id i rp)) r end.
Definition op_sane (w : pworld) (o : pop) : Prop :=
  match o with
  | ONew _ _ _ programs maxPass images buffers _ => (programs = 1 \/ maxPass <= programs)%nat /\ (programs >= 1)%nat
  | ORecord id i rp => record_sane w id i rp
  | OReset id i _ => pass_index_ok w id i
  | ODestroy _ => True
  | ORun g l => records_sane (on_driver (fun d => log d [PWaited g]) w) l
  | OWait _ => True
  end.
Fixpoint sane (w : pworld) (ops : list pop) : Prop :=
  match ops with [] => True | o :: r => op_sane w o /\ sane (pstep w o) r end.

(* Compute passes have one program per pass index, and are reset only after they were recorded. *)
Definition compute_op_ok (w : pworld) (o : pop) : Prop :=
  match o with
  | ONew _ _ Compute programs maxPass _ _ _ => programs = maxPass
  | OReset id i _ => forall p, mfind id (pw_passes w) = Some p -> pp_kind p = Compute -> nth i (pp_initialised p) false = true
  | _ => True
  end.
Fixpoint compute_ok (w : pworld) (ops : list pop) : Prop :=
  match ops with [] => True | o :: r => compute_op_ok w o /\ compute_ok (pstep w o) r end.

(* Descriptor pools.  What a history allocated from a pool: the bindings of the layout of each set. *)
Fixpoint layout_of (log : list pevent) (h : N) : list dbinding :=
  match log with
  | [] => []
  | PSetLayout h' b :: r => if N.eqb h h' then b else layout_of r h
  | _ :: r => layout_of r h
  end.
Definition sets_from (log : list pevent) (pool : N) : list (list dbinding) :=
  flat_map (fun e => match e with PAllocated p layout _ => if N.eqb p pool then [layout_of log layout] else [] | _ => [] end) log.
Definition needs_of (t : N) (b : list dbinding) : N := fold_right (fun x s => (if N.eqb (db_type x) t then db_count x else 0) + s) 0 b.
Definition total_needs (t : N) (sets : list (list dbinding)) : N := fold_right (fun b s => needs_of t b + s) 0 sets.
Definition holds_of (t : N) (sizes : list (N * N)) : N := fold_right (fun x s => (if N.eqb (fst x) t then snd x else 0) + s) 0 sizes.

(* The attachments were declared by the methods of the passes. *)
Definition declared_image (a : attach) : Prop := exists m pass views binding wanted flag misc, a = declare_image m pass views binding wanted flag misc.
Definition op_declared (o : pop) : Prop :=
  match o with ONew _ _ _ _ _ images _ _ => Forall declared_image images | _ => True end.
(* The writes of a set and the bindings of its layout: same bindings, same types, same counts. *)
Definition same_bindings (writes : list dwrite) (layout : list dbinding) : Prop :=
  map (fun w => (dw_binding w, dw_type w, dw_count w)) writes = map (fun b => (db_binding b, db_type b, db_count b)) layout.

(* Submissions still executing: what each graph submitted since it was last waited for. *)
Fixpoint pending (graphs : nmap (list N)) (log : list pevent) : nmap (list N) :=
  match log with
  | [] => graphs
  | PWaited g :: r => pending (mput g [] graphs) r
  | PSubmitted g l :: r => pending (mput g l graphs) r
  | _ :: r => pending graphs r
  end.
Definition in_flight (log : list pevent) (h : N) : Prop := exists g l, mfind g (pending [] log) = Some l /\ In h l.
(* Nothing is destroyed while a submission using it may be executing, and every submission uses living pipelines. *)
Definition no_use_after_destroy (log : list pevent) : Prop :=
  (forall l1 h l2, log = l1 ++ PDestroyed KPipeline h :: l2 -> ~ in_flight l1 h) /\
  (forall l1 g bound l2, log = l1 ++ PSubmitted g bound :: l2 ->
     exists l, alive_after KPipeline l1 = Some l /\ forall h, In h bound -> In h l).
(* One graph runs in the context, and it records each pass at most once per run; passes are destroyed, and the render
   pass of a mesh is made again out of a run, when the last submission was waited for. *)
Definition idle (w : pworld) : Prop := forall h, ~ in_flight (dr_log (pw_driver w)) h.
Definition op_one_graph (g : N) (w : pworld) (o : pop) : Prop :=
  match o with
  | ORun g' l => g' = g /\ NoDup (map (fun x => fst (fst x)) l)
  | ODestroy _ => idle w
  | ORecord id _ rp => forall p, mfind id (pw_passes w) = Some p -> pp_kind p = Mesh -> rp <> None -> idle w
  | _ => True
  end.
Fixpoint one_graph (g : N) (w : pworld) (ops : list pop) : Prop :=
  match ops with [] => True | o :: r => op_one_graph g w o /\ one_graph g (pstep w o) r end.

(* A fact about every event of a history of calls and the calls before it. *)
Definition each (Q : list pevent -> pevent -> Prop) (log : list pevent) : Prop := forall l1 e l2, log = l1 ++ e :: l2 -> Q l1 e.
(* Sets are allocated from a pool and with a layout that exist. *)
Definition alloc_living (before : list pevent) (e : pevent) : Prop :=
  match e with
  | PAllocated pool layout _ =>
      (exists l, alive_after KPool before = Some l /\ In pool l) /\ (exists l, alive_after KSetLayout before = Some l /\ In layout l)
  | _ => True
  end.
(* The counts of the descriptors of a pass fit in 32 bits. *)
Definition op_counts_fit (o : pop) : Prop :=
  match o with
  | ONew _ _ _ _ maxPass images buffers _ => N.of_nat (length images + length buffers) * N.of_nat maxPass < 4294967296 /\ N.of_nat maxPass < 4294967296
  | _ => True
  end.

(* The program, the render pass (0: none) and the layout a pipeline was created with. *)
Fixpoint made_as (log : list pevent) (h : N) : option (N * N * N) :=
  match log with
  | [] => None
  | PPipeline h' program rp layout :: r => if N.eqb h h' then Some (program, rp, layout) else made_as r h
  | _ :: r => made_as r h
  end.
(* The last render pass made for a pass. *)
Definition made_in (id : N) (l : list (N * nat * option N)) (cur : option N) : option N :=
  fold_left (fun cur x => match x with (id', _, Some r) => if N.eqb id id' then Some r else cur | _ => cur end) l cur.
Definition made_by (id : N) (o : pop) (cur : option N) : option N :=
  match o with ORecord id' i rp => made_in id [(id', i, rp)] cur | ORun _ l => made_in id l cur | _ => cur end.
Definition last_made (id : N) (ops : list pop) : option N := fold_left (fun cur o => made_by id o cur) ops None.
(* The same for one pass index, for histories that only record. *)
Definition last_made_at (id : N) (i : nat) (ops : list pop) : option N :=
  fold_left (fun cur o => match o with ORecord id' j (Some r) => if andb (N.eqb id id') (Nat.eqb i j) then Some r else cur | _ => cur end) ops None.
(* The last program given for an index of a pass with [programs] programs: one program serves every index.  The programs of
   the configuration are numbered by their position. *)
Definition same_program (programs i j : nat) : bool := orb (Nat.eqb programs 1) (Nat.eqb i j).
Definition given_by (id : N) (programs i : nat) (o : pop) (cur : N) : N :=
  match o with OReset id' j (Some c) => if andb (N.eqb id id') (same_program programs i j) then c else cur | _ => cur end.
Definition last_given (id : N) (programs i : nat) (ops : list pop) : N :=
  fold_left (fun cur o => given_by id programs i o cur) ops (if Nat.eqb programs 1 then 0 else N.of_nat i).
(* With a program creator, the pass indices stay below its maximum count (assertion of getProgram). *)
Definition creator_ok (programs maxPass : nat) (creator : option (nat -> N)) : Prop := creator <> None -> (maxPass <= programs)%nat.
Definition op_creator_ok (o : pop) : Prop := match o with ONew _ _ _ n m _ _ creator => creator_ok n m creator | _ => True end.
(* What the recording of a pass at an index binds after some operations: the pipeline, and the descriptor set with its layout. *)
Definition binds (ops : list pop) (id : N) (index : nat) (rp : option N) : option (N * N * N) :=
  option_map (fun p => ho_recordInto index (pp_holder p)) (mfind id (pw_passes (prun new_pworld (ops ++ [ORecord id index rp])))).
(* The object exists after these calls. *)
Definition living (k : kind) (log : list pevent) (h : N) : Prop := exists l, alive_after k log = Some l /\ In h l.
