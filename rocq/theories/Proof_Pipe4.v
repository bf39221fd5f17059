(* Descriptor pools over whole histories. *)
From Verif Require Export Proof_Pipe3.
From Coq Require Import Lia ZifyBool ZifyNat ZifyN Permutation PeanoNat.
Local Open Scope N_scope.

(* Any property of a pass and the driver kept by the operations of a holder is kept by a pass; [may]: it is also kept by a cleanup. *)
Record closed (may : Prop) (R : driver * ppass -> Prop) : Prop := {
  cl_create : forall nf i x, R x -> R (on_holder (ho_create nf i) x);
  cl_reset : forall i x, R x -> R (on_holder (ho_reset i) x);
  cl_initialise : forall x, R x -> R (on_holder (ho_initialise (pp_images (snd x)) (pp_buffers (snd x))) x);
  cl_cleanup : may -> forall x, R x -> R (on_holder ho_cleanup x);
  cl_rp : forall d p rp, R (d, p) -> R (d, with_renderPass p rp);
  cl_init : forall d p i, R (d, p) -> R (d, with_initialised p i);
  cl_code : forall d p i c, R (d, p) -> R (d, with_code p i c) }.
Lemma guarded_cases nf i x : on_holder (guarded_create nf i) x = if N.eqb (ho_pipeline (pp_holder (snd x)) i) 0 then on_holder (ho_create nf i) x else x.
Proof. destruct x as [d p]. cbn. unfold guarded_create. destruct (N.eqb _ 0); [reflexivity|]. destruct p; reflexivity. Qed.
Lemma cl_guarded M R : closed M R -> forall nf i x, R x -> R (on_holder (guarded_create nf i) x).
Proof. intros C nf i x H. rewrite guarded_cases. destruct (N.eqb _ 0); [apply (cl_create M R C), H|exact H]. Qed.
Lemma cl_resetRP M R : closed M R -> forall rp i x, R x -> R (resetRenderPass rp i x).
Proof.
  intros C rp i x H. unfold resetRenderPass. pose proof (cl_reset M R C i x H) as H1. destruct (on_holder (ho_reset i) x) as [d p].
  apply (cl_guarded M R C), (cl_rp M R C), H1.
Qed.
Lemma cl_quad M R : closed M R -> forall rp i x, R x -> R (quad_initialise rp i x).
Proof.
  intros C rp i [d p] H. unfold quad_initialise. apply (cl_guarded M R C). destruct (negb (pp_prepared p)).
  - pose proof (cl_initialise M R C (d, p) H) as H1. cbn [snd] in H1. destruct (on_holder _ (d, p)) as [d1 p1]. apply (cl_rp M R C), H1.
  - destruct (negb _); [apply (cl_resetRP M R C), H|exact H].
Qed.
Lemma cl_mesh M R : closed M R -> M -> forall rp i x, R x -> R (mesh_initialise rp i x).
Proof.
  intros C HM rp i x H. unfold mesh_initialise. pose proof (cl_cleanup M R C HM x H) as H1. destruct (on_holder ho_cleanup x) as [d p].
  pose proof (cl_initialise M R C (d, p) H1) as H2. cbn [snd] in H2. destruct (on_holder _ (d, p)) as [d1 p1]. apply (cl_guarded M R C).
  destruct (N.eqb _ 0); [apply (cl_rp M R C), H2|]. destruct (negb _); [apply (cl_resetRP M R C), H2|exact H2].
Qed.
(* pass_record before the descriptor set *)
Definition pre_record (i : nat) (rp : option N) (d : driver) (p : ppass) : driver * ppass :=
  match pp_kind p with
  | Compute =>
      if nth i (pp_initialised p) false then (d, p)
      else let '(d, p) := compute_create i (on_holder (ho_initialise (pp_images p) (pp_buffers p)) (d, p)) in
           (d, with_initialised p i)
  | Quad => doCreatePipeline i (match rp with Some rp => quad_initialise rp i (d, p) | None => (d, p) end)
  | Mesh => doCreatePipeline i (match rp with Some rp => mesh_initialise rp i (d, p) | None => (d, p) end)
  end.
Lemma cl_pre M R : closed M R -> forall i rp d p, (pp_kind p = Mesh -> rp <> None -> M) -> R (d, p) -> R (pre_record i rp d p).
Proof.
  intros C i rp d p Hm H. unfold pre_record. destruct (pp_kind p).
  - destruct (nth i (pp_initialised p) false); [exact H|].
    pose proof (cl_initialise M R C (d, p) H) as H0. cbn [snd] in H0.
    pose proof (cl_create M R C (pipeline_info (snd (on_holder (ho_initialise (pp_images p) (pp_buffers p)) (d, p))) i) i _ H0) as H1. unfold compute_create.
    destruct (on_holder (ho_create _ i) _) as [d1 p1]. apply (cl_init M R C), H1.
  - apply (cl_guarded M R C). destruct rp; [apply (cl_quad M R C), H|exact H].
  - apply (cl_guarded M R C). destruct rp; [apply (cl_mesh M R C (Hm eq_refl ltac:(discriminate))), H|exact H].
Qed.
Lemma record_pre i rp d p : pass_record i rp d p =
  let '(d', p') := on_holder (ho_set (pp_images p) (pp_buffers p) i) (pre_record i rp d p) in (d', p', ho_pipeline (pp_holder p') i).
Proof. reflexivity. Qed.
Lemma cl_passreset M R : closed M R -> forall i c d p, R (d, p) -> R (pass_reset i c d p).
Proof.
  intros C i c d p H. unfold pass_reset. pose proof (cl_reset M R C i (d, p) H) as H0. destruct (on_holder (ho_reset i) (d, p)) as [d1 p1].
  pose proof (cl_code M R C d1 p1 i c H0) as H1. destruct (pp_kind p1).
  - apply (cl_create M R C), H1.
  - destruct (N.eqb _ 0); [exact H1|apply (cl_guarded M R C), H1].
  - destruct (N.eqb _ 0); [exact H1|apply (cl_guarded M R C), H1].
Qed.
Lemma closed_and M R S : closed M R -> closed M S -> closed M (fun x => R x /\ S x).
Proof. intros [] []. constructor; intros; split; firstorder. Qed.

Lemma PI_closed k r : k <> KPipeline -> closed True (PI true k r).
Proof.
  intro Hk. constructor.
  - intros nf i x H. apply PI_create; [|exact H]. intros _ E. contradiction.
  - intros i x H. apply PI_reset, H.
  - intros x H. apply PI_initialise, H.
  - intros _ x H. apply PI_cleanup, H.
  - intros d p rp H. exact H.
  - intros d p rp H. exact H.
  - intros d p i pc H. destruct pc; exact H.
Qed.
Lemma static_closed a c m : closed True (fun x => pp_images (snd x) = a /\ pp_buffers (snd x) = c /\ length (ho_sets (pp_holder (snd x))) = m).
Proof.
  assert (H : forall f x, (forall d h, dims (snd (f d h)) = dims h) ->
     pp_images (snd x) = a /\ pp_buffers (snd x) = c /\ length (ho_sets (pp_holder (snd x))) = m ->
     pp_images (snd (on_holder f x)) = a /\ pp_buffers (snd (on_holder f x)) = c /\ length (ho_sets (pp_holder (snd (on_holder f x)))) = m).
  { intros f x Hd H. destruct (still_on f x Hd) as ((_ & _ & S1 & S2 & S3) & _). unfold dims in S3. injection S3 as _ _ S3. rewrite S1, S2, S3. exact H. }
  constructor; intros; try (apply H; [|assumption]).
  - apply dims_create. - apply dims_reset. - apply dims_initialise. - apply dims_cleanup. - assumption. - assumption. - destruct c0; assumption.
Qed.

(* Logs. *)
Definition plain (e : pevent) : bool := match e with PSetLayout _ _ | PPool _ _ _ | PAllocated _ _ _ => false | _ => true end.
Lemma each_nil Q : each Q []. Proof. intros l1 e l2 E. destruct l1; discriminate. Qed.

Lemma each_snoc Q l e : each Q l -> Q l e -> each Q (l ++ [e]).
Proof.
  intros H He l1 x l2 E. destruct l2 as [|z l2 _] using rev_ind; [apply app_inj_tail in E; destruct E as [-> ->]; exact He|].
  rewrite app_comm_cons, app_assoc in E. apply app_inj_tail in E. destruct E as [-> ->]. apply (H l1 x l2). reflexivity.
Qed.
Lemma each_app Q es : forall l, each Q l -> (forall l1 e l2, es = l1 ++ e :: l2 -> Q (l ++ l1) e) -> each Q (l ++ es).
Proof.
  induction es as [|e es IH]; intros l H He; [rewrite app_nil_r; exact H|].
  replace (l ++ e :: es) with ((l ++ [e]) ++ es) by (rewrite <- app_assoc; reflexivity).
  apply IH; [apply each_snoc; [exact H|]|].
  - specialize (He [] e es eq_refl). rewrite app_nil_r in He. exact He.
  - intros l1 x l2 E. rewrite <- app_assoc. cbn. apply (He (e :: l1) x l2). rewrite E. reflexivity.
Qed.
Lemma each_app_all (Q : list pevent -> pevent -> Prop) l es : each Q l -> (forall e, In e es -> forall b, Q b e) -> each Q (l ++ es).
Proof. intros H He. apply each_app; [exact H|]. intros l1 e l2 E. apply He. rewrite E. apply in_or_app. right. left. reflexivity. Qed.

Definition known (log : list pevent) (s : N) : Prop := exists b, In (PSetLayout s b) log.
Lemma layout_app log es s : known log s -> layout_of (log ++ es) s = layout_of log s.
Proof.
  intros [b H]. induction log as [|e r IH]; [destruct H|]. destruct H as [H|H].
  - subst e. cbn. rewrite N.eqb_refl. reflexivity.
  - cbn. destruct e; try (apply IH, H). destruct (N.eqb s h); [reflexivity|apply IH, H].
Qed.
Lemma known_app log es s : known log s -> known (log ++ es) s.
Proof. intros [b H]. exists b. apply in_or_app. left. exact H. Qed.
Lemma layout_new log s b es : ~ known log s -> layout_of (log ++ PSetLayout s b :: es) s = b.
Proof.
  intro H. induction log as [|e r IH]; cbn; [rewrite N.eqb_refl; reflexivity|].
  assert (H' : ~ known r s) by (intros [c X]; apply H; exists c; right; exact X).
  destruct e; try (apply IH, H'). destruct (N.eqb_spec s h); [|apply IH, H']. exfalso. apply H. subst h. exists bindings. left. reflexivity.
Qed.

(* the sets of a pool, with the layouts given by some log *)
Definition sets_with (full : list pevent) (log : list pevent) (pool : N) : list (list dbinding) :=
  flat_map (fun e => match e with PAllocated p layout _ => if N.eqb p pool then [layout_of full layout] else [] | _ => [] end) log.
Lemma sets_with_app full l1 l2 pool : sets_with full (l1 ++ l2) pool = sets_with full l1 pool ++ sets_with full l2 pool.
Proof. apply flat_map_app. Qed.
Definition allocs_known (log : list pevent) : Prop := forall p s x, In (PAllocated p s x) log -> known log s.
Lemma sets_full log es l pool : (forall p s x, In (PAllocated p s x) l -> known log s) -> sets_with (log ++ es) l pool = sets_with log l pool.
Proof.
  intro H. unfold sets_with. induction l as [|e l IH]; [reflexivity|]. cbn [flat_map].
  rewrite IH by (intros p s x X; apply (H p s x); right; exact X). f_equal.
  destruct e; try reflexivity. rewrite layout_app by (apply (H pool0 layout set); left; reflexivity). reflexivity.
Qed.
Lemma sets_app log es pool : allocs_known log -> sets_from (log ++ es) pool = sets_from log pool ++ sets_with (log ++ es) es pool.
Proof.
  intro H. change (sets_from (log ++ es) pool) with (sets_with (log ++ es) (log ++ es) pool). rewrite sets_with_app. f_equal.
  apply sets_full. exact H.
Qed.
Lemma sets_none full l pool : (forall p s x, In (PAllocated p s x) l -> p <> pool) -> sets_with full l pool = [].
Proof.
  intro H. induction l as [|e l IH]; [reflexivity|]. unfold sets_with. cbn [flat_map]. fold (sets_with full l pool).
  rewrite IH by (intros p s x X; apply (H p s x); right; exact X). destruct e; try reflexivity.
  destruct (N.eqb_spec pool0 pool) as [E|E]; [|reflexivity]. exfalso. apply (H pool0 layout set); [left; reflexivity|exact E].
Qed.

(* sizes of pools *)
Lemma add_size_keys t n l x : In x (map fst (add_size t n l)) <-> x = t \/ In x (map fst l).
Proof.
  induction l as [|[t' n'] l IH]; cbn; [intuition|]. destruct (N.eqb_spec t t') as [E|E]; cbn; [subst; intuition|]. rewrite IH. intuition.
Qed.
Lemma add_size_nodup t n l : NoDup (map fst l) -> NoDup (map fst (add_size t n l)).
Proof.
  induction l as [|[t' n'] l IH]; intro H; cbn; [constructor; [intros []|constructor]|]. destruct (N.eqb_spec t t') as [E|E]; [exact H|].
  cbn in *. inversion H; subst. constructor; [|apply IH; assumption]. rewrite add_size_keys. intros [X|X]; [congruence|contradiction].
Qed.
Lemma sizes_nodup b m : NoDup (map fst (getBindingsSizes b m)).
Proof.
  unfold getBindingsSizes. assert (G : forall l, NoDup (map fst l) -> NoDup (map fst (fold_left (fun l b => add_size (db_type b) (u32 (db_count b * m)) l) b l))).
  { induction b as [|x b IH]; intros l H; [exact H|]. cbn. apply IH, add_size_nodup, H. }
  apply G. constructor.
Qed.
Definition sum_sizes (l : list (N * N)) : N := fold_right (fun x s => snd x + s) 0 l.
Lemma u32_small n : n < 4294967296 -> u32 n = n.
Proof. intro H. unfold u32. apply N.mod_small. exact H. Qed.
Lemma add_size_spec t n l : sum_sizes l + n < 4294967296 ->
  sum_sizes (add_size t n l) = sum_sizes l + n /\ forall t', holds_of t' (add_size t n l) = holds_of t' l + (if N.eqb t t' then n else 0).
Proof.
  induction l as [|[t' n'] l IH]; intro H; cbn [sum_sizes fold_right snd] in *.
  - split; [cbn; lia|]. intro x. cbn. destruct (N.eqb t x); lia.
  - fold (sum_sizes l) in *. cbn [add_size]. destruct (N.eqb_spec t t') as [E|E].
    + subst t'. rewrite u32_small by lia. split; [cbn; fold (sum_sizes l); lia|]. intro x. cbn. fold (holds_of x l). destruct (N.eqb t x); lia.
    + destruct IH as [I1 I2]; [lia|]. split; [cbn; fold (sum_sizes (add_size t n l)); lia|]. intro x. cbn. fold (holds_of x l) (holds_of x (add_size t n l)). rewrite I2. lia.
Qed.
Lemma sizes_hold b m : (forall x, In x b -> db_count x = 1) -> N.of_nat (length b) * m < 4294967296 ->
  forall t, holds_of t (getBindingsSizes b m) = m * needs_of t b.
Proof.
  intros Hc Hb. unfold getBindingsSizes.
  assert (G : forall b l, (forall x, In x b -> db_count x = 1) -> sum_sizes l + N.of_nat (length b) * m < 4294967296 -> forall t,
     holds_of t (fold_left (fun l b => add_size (db_type b) (u32 (db_count b * m)) l) b l) = holds_of t l + m * needs_of t b).
  { clear. induction b as [|x b IH]; intros l Hc Hb t; [cbn [fold_left needs_of fold_right]; rewrite N.mul_0_r; lia|]. cbn [length] in Hb. rewrite Nat2N.inj_succ, N.mul_succ_l in Hb. cbn [fold_left needs_of fold_right]. fold (needs_of t b).
    rewrite (Hc x) by (left; reflexivity). rewrite N.mul_1_l. rewrite u32_small by lia. destruct (add_size_spec (db_type x) m l) as [S1 S2]; [lia|].
    rewrite IH; [|intros y Hy; apply Hc; right; exact Hy|rewrite S1; lia]. rewrite S2. rewrite N.mul_add_distr_l. destruct (N.eqb (db_type x) t); lia. }
  intro t. rewrite G; [reflexivity|exact Hc|cbn; lia].
Qed.
Lemma total_repeat t b n : total_needs t (repeat b n) = N.of_nat n * needs_of t b.
Proof. induction n as [|n IH]; [reflexivity|]. cbn [repeat total_needs fold_right]. fold (total_needs t (repeat b n)). rewrite IH. lia. Qed.
Lemma fill_count a c x : In x (fill_bindings a c) -> db_count x = 1.
Proof. unfold fill_bindings. intro H. apply in_app_or in H. destruct H as [H|H]; apply in_map_iff in H; destruct H as (y & <- & _); reflexivity. Qed.
Lemma filter_le {A} (f : A -> bool) l : (length (filter f l) <= length l)%nat.
Proof. induction l as [|x l IH]; cbn; [lia|]. destruct (f x); cbn; lia. Qed.
Lemma fill_length a c : (length (fill_bindings a c) <= length a + length c)%nat.
Proof. unfold fill_bindings. rewrite app_length, !map_length. pose proof (filter_le (fun a => orb (isSampledView a) (isStorageView a)) a).
  pose proof (filter_le (fun a => orb (orb (isUniformBuffer a) (isStorageBuffer a)) (orb (isUniformView a) (isStorageBView a))) c). lia. Qed.

(* The global part. *)
Definition GP (d : driver) : Prop :=
  (forall p s x, In (PAllocated p s x) (dr_log d) -> known (dr_log d) s /\ p < dr_next d) /\
  (forall s b, In (PSetLayout s b) (dr_log d) -> s < dr_next d) /\
  (forall h ms sz, In (PPool h ms sz) (dr_log d) -> h < dr_next d /\ NoDup (map fst sz) /\
     N.of_nat (length (sets_from (dr_log d) h)) <= ms /\ forall t, total_needs t (sets_from (dr_log d) h) <= holds_of t sz) /\
  each alloc_living (dr_log d).
(* A holder and its pool. *)
Definition nonzero (l : list N) : nat := length (filter (fun x => negb (N.eqb x 0)) l).
Definition HP (d : driver) (h : pholder) (b : list dbinding) : Prop := ho_pool h <> 0 ->
  ho_setLayout h <> 0 /\ known (dr_log d) (ho_setLayout h) /\ layout_of (dr_log d) (ho_setLayout h) = b /\
  sets_from (dr_log d) (ho_pool h) = repeat b (nonzero (ho_sets h)) /\
  forall ms sz, In (PPool (ho_pool h) ms sz) (dr_log d) -> ms = N.of_nat (length (ho_sets h)) /\ sz = getBindingsSizes b ms.

Definition quiet (es : list pevent) : Prop := forallb plain es = true.
Lemma quiet_in es : quiet es -> (forall p s x, ~ In (PAllocated p s x) es) /\ (forall s b, ~ In (PSetLayout s b) es) /\ (forall h ms sz, ~ In (PPool h ms sz) es).
Proof.
  unfold quiet. rewrite forallb_forall. intro H. repeat split; intros; intro X; apply H in X; discriminate.
Qed.
Lemma quiet_sets d es pool : GP d -> quiet es -> sets_from (dr_log d ++ es) pool = sets_from (dr_log d) pool.
Proof.
  intros (G1 & _) H. rewrite sets_app by (intros p s x X; apply (G1 p s x X)). rewrite (sets_none _ es), app_nil_r; [reflexivity|].
  intros p s x X. exfalso. apply (proj1 (quiet_in es H) p s x X).
Qed.
Definition mk (n : N) (l : list pevent) (q : list N) : driver := {| dr_next := n; dr_log := l; dr_queue := q |}.
Lemma GP_quiet d es n q : GP d -> quiet es -> dr_next d <= n -> GP (mk n (dr_log d ++ es) q).
Proof.
  intros G H Hn. pose proof (quiet_in es H) as (Q1 & Q2 & Q3). pose proof (fun pool => quiet_sets d es pool G H) as E.
  destruct G as (G1 & G2 & G3 & G4). unfold GP. cbn [dr_log dr_next mk]. repeat split.
  - apply in_app_or in H0. destruct H0 as [X|X]; [|exfalso; apply (Q1 _ _ _ X)]. apply known_app. apply (G1 _ _ _ X).
  - apply in_app_or in H0. destruct H0 as [X|X]; [|exfalso; apply (Q1 _ _ _ X)]. specialize (G1 _ _ _ X). lia.
  - intros s b X. apply in_app_or in X. destruct X as [X|X]; [|exfalso; apply (Q2 _ _ X)]. specialize (G2 _ _ X). lia.
  - apply in_app_or in H0. destruct H0 as [X|X]; [|exfalso; apply (Q3 _ _ _ X)]. specialize (G3 _ _ _ X). lia.
  - apply in_app_or in H0. destruct H0 as [X|X]; [|exfalso; apply (Q3 _ _ _ X)]. apply (G3 _ _ _ X).
  - apply in_app_or in H0. destruct H0 as [X|X]; [|exfalso; apply (Q3 _ _ _ X)]. rewrite E. apply (G3 _ _ _ X).
  - apply in_app_or in H0. destruct H0 as [X|X]; [|exfalso; apply (Q3 _ _ _ X)]. rewrite E. apply (G3 _ _ _ X).
  - apply each_app_all; [exact G4|]. intros e X b. unfold quiet in H. rewrite forallb_forall in H. specialize (H e X). destruct e; try discriminate; exact I.
Qed.
Lemma HP_quiet d es n q h b : GP d -> HP d h b -> quiet es -> HP (mk n (dr_log d ++ es) q) h b.
Proof.
  intros G H Hq Hp. pose proof (quiet_in es Hq) as (Q1 & Q2 & Q3). destruct (H Hp) as (H1 & H2 & H3 & H4 & H5). cbn [dr_log mk].
  split; [exact H1|]. split; [apply known_app, H2|]. split; [rewrite layout_app by exact H2; exact H3|]. split; [rewrite quiet_sets by assumption; exact H4|].
  intros ms sz X. apply in_app_or in X. destruct X as [X|X]; [|exfalso; apply (Q3 _ _ _ X)]. apply (H5 ms sz X).
Qed.
Lemma HP_same d h h' b : ho_pool h' = ho_pool h -> ho_setLayout h' = ho_setLayout h -> ho_sets h' = ho_sets h -> HP d h b -> HP d h' b.
Proof. unfold HP. intros -> -> ->. auto. Qed.

(* What one pass adds to the log. *)
Definition extends (d0 : driver) (pool0 : N) (d : driver) (pool : N) : Prop :=
  dr_next d0 <= dr_next d /\ (pool = pool0 \/ pool = 0 \/ dr_next d0 <= pool) /\
  exists es, dr_log d = dr_log d0 ++ es /\
    (forall p s x, In (PAllocated p s x) es -> p = pool0 \/ dr_next d0 <= p) /\
    (forall h ms sz, In (PPool h ms sz) es -> dr_next d0 <= h).
Lemma extends_refl d p : extends d p d p.
Proof. split; [lia|]. split; [auto|]. exists []. split; [rewrite app_nil_r; reflexivity|]. split; [intros ? ? ? []|intros ? ? ? []]. Qed.
Lemma extends_quiet d0 pool0 d pool pool' es n q : extends d0 pool0 d pool -> quiet es -> dr_next d <= n -> (pool' = pool \/ pool' = 0) ->
  extends d0 pool0 (mk n (dr_log d ++ es) q) pool'.
Proof.
  intros (E1 & E2 & es0 & E3 & E4 & E5) H Hn Hp. pose proof (quiet_in es H) as (Q1 & Q2 & Q3). split; [cbn; lia|]. split; [destruct Hp; subst; auto|].
  exists (es0 ++ es). split; [cbn; rewrite E3, app_assoc; reflexivity|]. split.
  - intros p s x X. apply in_app_or in X. destruct X as [X|X]; [apply (E4 p s x X)|exfalso; apply (Q1 _ _ _ X)].
  - intros p s x X. apply in_app_or in X. destruct X as [X|X]; [apply (E5 p s x X)|exfalso; apply (Q3 _ _ _ X)].
Qed.

Section OnePass.
Context (d0 : driver) (pool0 : N) (a c : list attach) (m : nat) (r1 r2 : N -> nat).
Context (Hfit : N.of_nat (length a + length c) * N.of_nat m < 4294967296) (Hm : N.of_nat m < 4294967296).
Let b := fill_bindings a c.
Definition own_part (x : driver * ppass) : Prop :=
  GP (fst x) /\ HP (fst x) (pp_holder (snd x)) b /\ extends d0 pool0 (fst x) (ho_pool (pp_holder (snd x))) /\
  (ho_pool (pp_holder (snd x)) = 0 -> nonzero (ho_sets (pp_holder (snd x))) = 0%nat).
Definition full_part (x : driver * ppass) : Prop :=
  (pp_images (snd x) = a /\ pp_buffers (snd x) = c /\ length (ho_sets (pp_holder (snd x))) = m) /\
  (PI true KPool r1 x /\ PI true KSetLayout r2 x) /\ own_part x.

Lemma own_quiet f x : (forall d h, exists es n q, fst (f d h) = mk n (dr_log d ++ es) q /\ quiet es /\ dr_next d <= n /\
    ho_pool (snd (f d h)) = ho_pool h /\ ho_setLayout (snd (f d h)) = ho_setLayout h /\ ho_sets (snd (f d h)) = ho_sets h) ->
  own_part x -> own_part (on_holder f x).
Proof.
  intros Hf (H1 & H2 & H3 & H4). destruct x as [d p]. cbn [fst snd] in *. destruct (Hf d (pp_holder p)) as (es & n & q & E1 & E2 & E3 & E4 & E5 & E6).
  unfold own_part, on_holder. destruct (f d (pp_holder p)) as [d' h']. cbn [fst snd] in *. subst d'. cbn [with_holder pp_holder].
  split; [apply GP_quiet; assumption|]. split; [|split; [rewrite E4; eapply extends_quiet; eauto|rewrite E4, E6; exact H4]].
  apply (HP_same _ (pp_holder p)); try assumption. apply HP_quiet; assumption.
Qed.
Lemma nonzero_zeros {A} (l : list A) : nonzero (map (fun _ => 0) l) = 0%nat.
Proof. unfold nonzero. induction l; [reflexivity|]. exact IHl. Qed.
Lemma destroy_quiet k l : quiet (flat_map (destroy_event k) l).
Proof. unfold quiet. induction l as [|x l IH]; [reflexivity|]. cbn [flat_map]. rewrite forallb_app, IH. unfold destroy_event. destruct (N.eqb x 0); reflexivity. Qed.

Lemma fresh_pool_new d n : GP d -> dr_next d <= n -> sets_from (dr_log d) n = [] /\ (forall ms sz, ~ In (PPool n ms sz) (dr_log d)) /\ ~ known (dr_log d) n.
Proof.
  intros (G1 & G2 & G3 & _) Hn. split; [|split].
  - apply (sets_none (dr_log d)). intros p s x X. specialize (G1 p s x X). lia.
  - intros ms sz X. specialize (G3 _ _ _ X). lia.
  - intros [b0 X]. specialize (G2 _ _ X). lia.
Qed.

Lemma own_initialise x : full_part x -> own_part (on_holder (ho_initialise a c) x).
Proof.
  intros ((S1 & S2 & S3) & (P1 & P2) & H1 & H2 & H3 & H4). destruct x as [d p]. cbn [fst snd] in *.
  unfold on_holder, ho_initialise. destruct (N.eqb_spec (ho_layout (pp_holder p)) 0) as [E|E].
  2:{ unfold own_part. cbn. auto. }
  assert (Ep : ho_pool (pp_holder p) = 0) by (apply (proj2 P1), E). specialize (H4 Ep).
  assert (Hn : 0 < dr_next d) by (destruct P1 as (((I0 & _) & _) & _); exact I0).
  unfold fresh. cbn [dr_next dr_log dr_queue]. rewrite <- !app_assoc. cbn [app]. fold b. rewrite S3, (u32_small (N.of_nat m)) by exact Hm.
  set (n := dr_next d). set (L := dr_log d).
  set (es := [PCreated KSetLayout n; PSetLayout n b; PCreated KLayout (n + 1); PCreated KPool (n + 1 + 1); PPool (n + 1 + 1) (N.of_nat m) (getBindingsSizes b (N.of_nat m))]).
  assert (Ha : allocs_known L) by (intros q s x X; apply (proj1 H1 q s x X)).
  assert (Es : forall pool, sets_from (L ++ es) pool = sets_from L pool).
  { intro pool. rewrite sets_app by exact Ha. unfold es. cbn [sets_with flat_map]. rewrite !app_nil_r. reflexivity. }
  unfold own_part. cbn [fst snd with_holder pp_holder ho_pool ho_setLayout ho_sets dr_log dr_next].
  destruct (fresh_pool_new d (n + 1 + 1) H1) as (F1 & F2 & _); [unfold n; lia|].
  destruct (fresh_pool_new d n H1) as (_ & _ & F3); [unfold n; lia|].
  split; [|split; [|split]].
  - destruct H1 as (G1 & G2 & G3 & G4). unfold GP. cbn [dr_log dr_next]. fold L in G1, G2, G3, G4. split; [|split; [|split]].
    + intros q s x X. apply in_app_or in X. destruct X as [X|X]; [|cbn in X; intuition discriminate]. split; [apply known_app, (G1 _ _ _ X)|].
      specialize (G1 _ _ _ X). unfold n. lia.
    + intros s b0 X. apply in_app_or in X. destruct X as [X|X]; [specialize (G2 _ _ X); unfold n; lia|]. cbn in X. destruct X as [X|[X|[X|[X|[X|[]]]]]]; try discriminate. injection X as <- <-. unfold n. lia.
    + intros h ms sz X. rewrite Es. apply in_app_or in X. destruct X as [X|X].
      * specialize (G3 _ _ _ X). destruct G3 as (A1 & A2 & A3 & A4). split; [unfold n; lia|]. auto.
      * cbn in X. destruct X as [X|[X|[X|[X|[X|[]]]]]]; try discriminate. injection X as <- <- <-. split; [lia|]. split; [apply sizes_nodup|].
        unfold L. rewrite F1. cbn. split; [lia|]. intro t. lia.
    + apply each_app_all; [exact G4|]. intros e X b0. cbn in X. destruct X as [X|[X|[X|[X|[X|[]]]]]]; subst e; exact I.
  - intros _. cbn [dr_log ho_setLayout ho_pool ho_sets]. split; [unfold n; lia|]. split; [exists b; apply in_or_app; right; right; left; reflexivity|].
    split; [|split].
    + change es with ([PCreated KSetLayout n] ++ PSetLayout n b :: tl (tl es)). rewrite app_assoc. apply layout_new. intros [b0 X]. apply in_app_or in X.
      destruct X as [X|X]; [|cbn in X; intuition discriminate]. apply F3. exists b0. exact X.
    + rewrite Es. unfold L. rewrite F1, H4. reflexivity.
    + intros ms sz X. apply in_app_or in X. destruct X as [X|X]; [exfalso; apply (F2 ms sz X)|]. cbn in X. destruct X as [X|[X|[X|[X|[X|[]]]]]]; try discriminate.
      injection X as <- <-. rewrite S3. auto.
  - destruct H3 as (E1 & E2 & es0 & E3 & E4 & E5). split; [cbn; unfold n; lia|]. split; [right; right; unfold n; lia|]. exists (es0 ++ es). cbn [dr_log].
    split; [unfold L; rewrite E3, app_assoc; reflexivity|]. split.
    + intros q s x X. apply in_app_or in X. destruct X as [X|X]; [apply (E4 _ _ _ X)|cbn in X; intuition discriminate].
    + intros q s x X. apply in_app_or in X. destruct X as [X|X]; [apply (E5 _ _ _ X)|]. cbn in X. destruct X as [X|[X|[X|[X|[X|[]]]]]]; try discriminate. injection X as <- <- <-. unfold n. lia.
  - intro X. exfalso. unfold n in X. lia.
Qed.

Lemma full_closed : closed True full_part.
Proof.
  pose proof (static_closed a c m) as CS. pose proof (closed_and _ _ _ (PI_closed KPool r1 ltac:(discriminate)) (PI_closed KSetLayout r2 ltac:(discriminate))) as CP.
  constructor.
  - intros nf i x (H1 & H2 & H3). split; [apply (cl_create _ _ CS), H1|]. split; [apply (cl_create _ _ CP nf i x), H2|]. apply own_quiet; [|exact H3].
    intros d h. unfold ho_create, fresh. cbn. eexists _, _, _. split; [reflexivity|]. split; [reflexivity|]. split; [lia|]. repeat split.
  - intros i x (H1 & H2 & H3). split; [apply (cl_reset _ _ CS), H1|]. split; [apply (cl_reset _ _ CP i x), H2|]. apply own_quiet; [|exact H3].
    intros d h. unfold ho_reset. destruct (N.eqb _ 0); cbn.
    + exists [], (dr_next d), (dr_queue d). split; [rewrite app_nil_r; destruct d; reflexivity|]. split; [reflexivity|]. split; [lia|]. repeat split.
    + exists [], (dr_next d), (dr_queue d ++ [ho_pipeline h i]). split; [rewrite app_nil_r; reflexivity|]. split; [reflexivity|]. split; [lia|]. repeat split.
  - intros x H. pose proof H as ((S1 & S2 & S3) & H2 & H3). split; [apply (cl_initialise _ _ CS x), H|]. split; [apply (cl_initialise _ _ CP x), H2|].
    rewrite S1, S2. apply own_initialise, H.
  - intros _ x (H1 & H2 & H3). split; [apply (cl_cleanup _ _ CS I), H1|]. split; [apply (cl_cleanup _ _ CP I x), H2|].
    destruct x as [d p]. destruct H3 as (G1 & G2 & G3 & G4). cbn [fst snd] in *. unfold own_part, on_holder, ho_cleanup. cbn [fst snd with_holder pp_holder ho_pool ho_sets].
    rewrite !destroy_one.
    assert (Q : quiet (flat_map (destroy_event KPool) [ho_pool (pp_holder p)] ++ flat_map (destroy_event KPipeline) (ho_pipelines (pp_holder p)) ++
        flat_map (destroy_event KLayout) [ho_layout (pp_holder p)] ++ flat_map (destroy_event KSetLayout) [ho_setLayout (pp_holder p)])).
    { unfold quiet. rewrite !forallb_app. fold (quiet (flat_map (destroy_event KPool) [ho_pool (pp_holder p)])). rewrite !(destroy_quiet _ _). reflexivity. }
    split; [apply GP_quiet; [exact G1|exact Q|lia]|]. split; [intro X; cbn in X; contradiction|]. split; [|intros _; apply nonzero_zeros].
    eapply extends_quiet; [exact G3|exact Q|cbn; lia|right; reflexivity].
  - intros d p rp H. exact H.
  - intros d p rp H. exact H.
  - intros d p i pc H. destruct pc; exact H.
Qed.

(* an allocation *)
Lemma nonzero_set l : forall i s, s <> 0 -> (i < length l)%nat -> nth i l 0 = 0 -> nonzero (set_nth i s l) = S (nonzero l) .
Proof.
  unfold nonzero. induction l as [|x l IH]; intros i s Hs Hi Hz; [cbn in Hi; lia|]. destruct i; cbn [set_nth nth filter] in *.
  - subst x. cbn. destruct (N.eqb_spec s 0); [contradiction|]. reflexivity.
  - specialize (IH i s Hs ltac:(cbn in Hi; lia) Hz). destruct (negb (N.eqb x 0)); cbn [length]; rewrite IH; reflexivity.
Qed.
Lemma nonzero_le l : (nonzero l <= length l)%nat. Proof. apply filter_le. Qed.
Lemma repeat_snoc {A} (x : A) n : repeat x n ++ [x] = repeat x (S n).
Proof. induction n as [|n IH]; [reflexivity|]. cbn [repeat app]. rewrite IH. reflexivity. Qed.
Lemma PI_living k r x h : PI true k r x -> In h (owned k (pp_holder (snd x))) -> h <> 0 -> exists l, alive_after k (dr_log (fst x)) = Some l /\ In h l.
Proof.
  intros [(_ & l & L1 & L2 & L3 & L4) _] Hi Hn. exists l. split; [exact L1|]. specialize (L4 h Hn). cbn [rel] in L4.
  unfold plus, own in L4. apply (count_occ_In N.eq_dec) in Hi. apply (count_occ_In N.eq_dec). lia.
Qed.
Lemma own_set i x : full_part x -> ho_pool (pp_holder (snd x)) <> 0 -> (i < m)%nat -> full_part (on_holder (ho_set a c i) x).
Proof.
  intros H Hp Hi. pose proof H as ((S1 & S2 & S3) & (P1 & P2) & H1 & H2 & H3 & H4).
  destruct (H2 Hp) as (T1 & T2 & T3 & T4 & T5).
  split; [|split; [split; apply PI_set; assumption|]].
  { destruct (still_on (ho_set a c i) x (dims_set a c i)) as ((_ & _ & Q1 & Q2 & Q3) & _). unfold dims in Q3. injection Q3 as _ _ Q3. rewrite Q1, Q2, Q3. auto. }
  pose proof (PI_living KPool r1 x _ P1 (or_introl eq_refl) Hp) as A1.
  pose proof (PI_living KSetLayout r2 x _ P2 (or_introl eq_refl) T1) as A2.
  assert (Hn : 0 < dr_next (fst x)) by (destruct P1 as (((I0 & _) & _) & _); exact I0).
  destruct x as [d p]. cbn [fst snd] in *. unfold on_holder, ho_set.
  destruct (N.eqb_spec (nth i (ho_sets (pp_holder p)) 0) 0) as [E|E].
  2:{ unfold own_part. cbn. auto. }
  unfold fresh, own_part. cbn [fst snd with_holder pp_holder with_sets ho_pool ho_setLayout ho_sets].
  set (n := dr_next d) in *. set (L := dr_log d) in *. set (po := ho_pool (pp_holder p)) in *. set (sl := ho_setLayout (pp_holder p)) in *.
  set (es := [PAllocated po sl n; PUpdated n (set_writes a c i)]).
  assert (Ha : allocs_known L) by (intros q s x X; apply (proj1 H1 q s x X)).
  assert (Es : forall pool, sets_from (L ++ es) pool = sets_from L pool ++ if N.eqb po pool then [b] else []).
  { intro pool. rewrite sets_app by exact Ha. f_equal. unfold es, sets_with. cbn [flat_map]. fold es. rewrite layout_app by exact T2. rewrite T3.
    destruct (N.eqb po pool); reflexivity. }
  pose proof (nonzero_set (ho_sets (pp_holder p)) i n ltac:(unfold n; lia) ltac:(lia) E) as Ez.
  pose proof (nonzero_le (set_nth i n (ho_sets (pp_holder p)))) as Le. rewrite set_nth_length, Ez, S3 in Le.
  assert (Hb : forall t, holds_of t (getBindingsSizes b (N.of_nat m)) = N.of_nat m * needs_of t b).
  { apply sizes_hold; [intros x; apply fill_count|]. pose proof (fill_length a c) as F. fold b in F. nia. }
  split; [|split; [|split]].
  - destruct H1 as (G1 & G2 & G3 & G4). unfold GP. cbn [dr_log dr_next]. fold L n in G1, G2, G3, G4. split; [|split; [|split]].
    + intros q s x X. apply in_app_or in X. destruct X as [X|X].
      * split; [apply known_app, (G1 _ _ _ X)|]. specialize (G1 _ _ _ X). lia.
      * cbn in X. destruct X as [X|[X|[]]]; try discriminate. injection X as <- <- <-. split; [apply known_app, T2|].
        destruct A1 as (l & A1 & A3). destruct P1 as ((_ & l' & I1 & _ & I3 & _) & _). cbn [fst] in I1, I3. fold L in I1. rewrite A1 in I1. injection I1 as <-. specialize (I3 po A3). fold n in I3. lia.
    + intros s b0 X. apply in_app_or in X. destruct X as [X|X]; [specialize (G2 _ _ X); lia|]. cbn in X. intuition discriminate.
    + intros h ms sz X. rewrite Es. apply in_app_or in X. destruct X as [X|X]; [|cbn in X; intuition discriminate].
      pose proof (G3 _ _ _ X) as (B1 & B2 & B3 & B4). split; [lia|]. split; [exact B2|]. destruct (N.eqb_spec po h) as [Eh|Eh].
      * subst h. destruct (T5 ms sz X) as [-> ->]. rewrite T4, repeat_snoc, repeat_length, S3. split; [lia|]. intro t. rewrite total_repeat, Hb. nia.
      * rewrite app_nil_r. auto.
    + apply each_app; [exact G4|]. intros l1 e l2 X. destruct l1 as [|e1 [|e2 l1]].
      * injection X as <- _. rewrite app_nil_r. split; assumption.
      * injection X as _ <- _. exact I.
      * injection X as _ _ X. destruct l1; discriminate.
  - intros _. cbn [dr_log ho_setLayout ho_pool ho_sets]. split; [exact T1|]. split; [apply known_app, T2|]. split; [rewrite layout_app by exact T2; exact T3|]. split.
    + change (sets_from (L ++ es) po = repeat b (nonzero (set_nth i n (ho_sets (pp_holder p))))). rewrite (Es po), N.eqb_refl. fold L in T4. fold po in T4. rewrite T4, repeat_snoc, Ez. reflexivity.
    + intros ms sz X. apply in_app_or in X. destruct X as [X|X]; [|cbn in X; intuition discriminate]. cbn. rewrite set_nth_length. apply (T5 ms sz X).
  - destruct H3 as (E1 & E2 & es0 & E3 & E4 & E5). split; [cbn; unfold n in *; lia|]. split; [exact E2|]. exists (es0 ++ es). cbn [dr_log].
    split; [unfold L; rewrite E3, app_assoc; reflexivity|]. split.
    + intros q s x X. apply in_app_or in X. destruct X as [X|X]; [apply (E4 _ _ _ X)|]. cbn in X. destruct X as [X|[X|[]]]; try discriminate. injection X as <- <- <-. destruct E2 as [X|[X|X]]; [left; exact X|contradiction|right; exact X].
    + intros q s x X. apply in_app_or in X. destruct X as [X|X]; [apply (E5 _ _ _ X)|cbn in X; intuition discriminate].
  - intro X. contradiction.
Qed.
End OnePass.
