(* Pipelines are not used after they were destroyed. *)
From Verif Require Export Proof_Pipe5.
From Coq Require Import Lia ZifyBool ZifyNat ZifyN Permutation PeanoNat.
Local Open Scope N_scope.

Lemma pending_app l1 : forall g l2, pending g (l1 ++ l2) = pending (pending g l1) l2.
Proof. induction l1 as [|e l1 IH]; intros g l2; [reflexivity|]. cbn [app pending]. destruct e; apply IH. Qed.
Definition calm (e : pevent) : bool := match e with PWaited _ | PSubmitted _ _ => false | _ => true end.
Lemma pending_calm es : forall g, forallb calm es = true -> pending g es = g.
Proof. induction es as [|e es IH]; intros g H; [reflexivity|]. cbn in H. apply andb_prop in H. destruct H as [H1 H2]. destruct e; try discriminate; apply (IH g H2). Qed.
Lemma flight_calm l es h : forallb calm es = true -> in_flight (l ++ es) h <-> in_flight l h.
Proof. intro H. unfold in_flight. rewrite pending_app, pending_calm by exact H. reflexivity. Qed.

Definition safe (before : list pevent) (e : pevent) : Prop :=
  match e with
  | PDestroyed KPipeline h => ~ in_flight before h
  | PSubmitted _ bound => exists l, alive_after KPipeline before = Some l /\ forall h, In h bound -> In h l
  | _ => True
  end.
Lemma safe_spec log : each safe log -> no_use_after_destroy log.
Proof. intro H. split; [intros l1 h l2 E; apply (H l1 _ l2 E)|intros l1 g bound l2 E; apply (H l1 _ l2 E)]. Qed.

(* calm extensions of the log, which destroy pipelines only if [may] *)
Definition ext (may : Prop) (d0 : driver) (d : driver) : Prop :=
  exists es, dr_log d = dr_log d0 ++ es /\ forallb calm es = true /\ (forall h, In (PDestroyed KPipeline h) es -> may).
Lemma ext_refl M d : ext M d d. Proof. exists []. split; [rewrite app_nil_r; reflexivity|]. split; [reflexivity|intros h []]. Qed.
Lemma ext_more M d0 d d' es : ext M d0 d -> dr_log d' = dr_log d ++ es -> forallb calm es = true -> (forall h, In (PDestroyed KPipeline h) es -> M) -> ext M d0 d'.
Proof.
  intros (es0 & E1 & E2 & E3) E C H. exists (es0 ++ es). split; [rewrite E, E1, app_assoc; reflexivity|]. split; [rewrite forallb_app, E2, C; reflexivity|].
  intros h X. apply in_app_or in X. destruct X as [X|X]; [apply (E3 h X)|apply (H h X)].
Qed.
Lemma destroy_calm k l : forallb calm (flat_map (destroy_event k) l) = true.
Proof. induction l as [|x l IH]; [reflexivity|]. cbn [flat_map]. rewrite forallb_app, IH. unfold destroy_event. destruct (N.eqb x 0); reflexivity. Qed.
Lemma cleanup_calm h : forallb calm (destroy_event KPool (ho_pool h) ++ flat_map (destroy_event KPipeline) (ho_pipelines h)
          ++ destroy_event KLayout (ho_layout h) ++ destroy_event KSetLayout (ho_setLayout h)) = true.
Proof. rewrite !(destroy_one KPool), !(destroy_one KLayout), !(destroy_one KSetLayout), !forallb_app, !destroy_calm. reflexivity. Qed.

Lemma ext_closed M d0 : closed M (fun x => ext M d0 (fst x)).
Proof.
  constructor.
  - intros nf i [d p] H. eapply ext_more; [exact H|reflexivity|reflexivity|]. intros h X. cbn in X. intuition discriminate.
  - intros i [d p] H. unfold on_holder, ho_reset. destruct (N.eqb _ 0); [exact H|]. eapply (ext_more M d0 d _ []); [exact H|cbn; rewrite app_nil_r; reflexivity|reflexivity|intros h []].
  - intros [d p] H. unfold on_holder, ho_initialise. destruct (N.eqb _ 0); [|exact H].
    eapply ext_more; [exact H|cbn; rewrite <- !app_assoc; reflexivity|reflexivity|]. intros h X. cbn in X. intuition discriminate.
  - intros HM [d p] H. eapply ext_more; [exact H|reflexivity|apply cleanup_calm|]. intros h X. exact HM.
  - intros d p rp H. exact H.
  - intros d p rp H. exact H.
  - intros d p i pc H. destruct pc; exact H.
Qed.
Lemma ext_set M d0 a c i x : ext M d0 (fst x) -> ext M d0 (fst (on_holder (ho_set a c i) x)).
Proof.
  destruct x as [d p]. intro H. unfold on_holder, ho_set. destruct (N.eqb _ 0); [|exact H]. eapply ext_more; [exact H|reflexivity|reflexivity|].
  intros h X. cbn in X. intuition discriminate.
Qed.
Lemma ext_safe (M : Prop) d0 d : ext M d0 d -> (M -> forall h, ~ in_flight (dr_log d0) h) -> each safe (dr_log d0) ->
  each safe (dr_log d) /\ (forall h, in_flight (dr_log d) h <-> in_flight (dr_log d0) h).
Proof.
  intros (es & E & C & H) HM S. rewrite E. split; [|intro h; apply flight_calm, C].
  apply each_app; [exact S|]. intros l1 e l2 X. subst es. rewrite forallb_app in C. cbn in C. apply andb_prop in C. destruct C as [C1 C2]. apply andb_prop in C2. destruct C2 as [C2 C3].
  destruct e; try exact I; try discriminate. destruct k; try exact I. cbn. rewrite flight_calm by exact C1. apply HM. apply (H h). apply in_or_app. right. left. reflexivity.
Qed.

(* The pipeline bound by a recording is not null, and is the pass's. *)
Lemma shape_closed : closed True (fun x => shape (snd x)).
Proof.
  assert (H : forall f x, (forall d h, dims (snd (f d h)) = dims h) -> shape (snd x) -> shape (snd (on_holder f x))).
  { intros f x Hd H. destruct (still_on f x Hd) as (S1 & S2 & _). apply (shape_still (snd x)); [exact S1|congruence|exact H]. }
  constructor; intros; try (apply H; [|assumption]).
  - apply dims_create. - apply dims_reset. - apply dims_initialise. - apply dims_cleanup. - assumption.
  - cbn [snd] in *. unfold shape in *. cbn. rewrite set_nth_length. assumption.
  - destruct c; assumption.
Qed.
Definition IN (p : ppass) : Prop := pp_kind p = Compute -> forall i, (i < length (ho_sets (pp_holder p)))%nat -> nth i (pp_initialised p) false = true -> ho_pipeline (pp_holder p) i <> 0.
Definition kind_is (k : pass_kind) (x : driver * ppass) : Prop := pp_kind (snd x) = k.
Lemma kind_closed k : closed True (kind_is k).
Proof.
  constructor.
  - intros nf i [d p] H. exact H.
  - intros i [d p] H. unfold kind_is, on_holder, ho_reset in *. destruct (N.eqb _ 0); exact H.
  - intros [d p] H. unfold kind_is, on_holder, ho_initialise in *. destruct (N.eqb _ 0); exact H.
  - intros _ [d p] H. exact H.
  - intros d p rp H. exact H.
  - intros d p rp H. exact H.
  - intros d p i pc H. destruct pc; exact H.
Qed.
Lemma next_closed : closed True (fun x => 0 < dr_next (fst x)).
Proof.
  constructor.
  - intros nf i [d p] H. cbn in *. lia.
  - intros i [d p] H. unfold on_holder, ho_reset. destruct (N.eqb _ 0); exact H.
  - intros [d p] H. unfold on_holder, ho_initialise. cbn [fst snd] in *. destruct (N.eqb _ 0); [cbn; lia|exact H].
  - intros _ [d p] H. exact H.
  - intros d p rp H. exact H.
  - intros d p rp H. exact H.
  - intros d p i pc H. destruct pc; exact H.
Qed.

Lemma create_slot nf i d h : (slot_of h i < length (ho_pipelines h))%nat -> ho_pipeline (snd (ho_create nf i d h)) i = dr_next d.
Proof.
  intro H. unfold ho_create, fresh, ho_pipeline, slot_of in *. cbn [snd with_pipelines ho_pipelines ho_programs]. rewrite nth_set_nth, Nat.eqb_refl. cbn [andb]. apply Nat.ltb_lt in H. rewrite H. reflexivity.
Qed.
Lemma create_other nf i j d h : ho_pipeline h j <> 0 -> dr_next d <> 0 -> ho_pipeline (snd (ho_create nf i d h)) j <> 0.
Proof.
  intros H Hn. unfold ho_create, fresh, ho_pipeline, slot_of in *. cbn [snd with_pipelines ho_pipelines ho_programs]. rewrite nth_set_nth. destruct (andb _ _); [exact Hn|exact H].
Qed.
Lemma guarded_slot nf i x : 0 < dr_next (fst x) -> (slot_of (pp_holder (snd x)) i < length (ho_pipelines (pp_holder (snd x))))%nat ->
  ho_pipeline (pp_holder (snd (on_holder (guarded_create nf i) x))) i <> 0.
Proof.
  intros Hn Hs. rewrite guarded_cases. destruct (N.eqb_spec (ho_pipeline (pp_holder (snd x)) i) 0) as [E|E]; [|exact E].
  destruct x as [d p]. cbn [fst snd] in *. pose proof (create_slot nf i d (pp_holder p) Hs) as C. unfold on_holder. destruct (ho_create nf i d (pp_holder p)) as [d' h'].
  cbn [snd with_holder pp_holder] in *. lia.
Qed.
Lemma sets_still p p' : still p p' -> length (ho_sets (pp_holder p')) = length (ho_sets (pp_holder p)).
Proof. intros (_ & _ & _ & _ & E). unfold dims in E. injection E as _ _ E. exact E. Qed.

Lemma record_bound i rp d p : shape p -> IN p -> 0 < dr_next d -> (i < length (ho_sets (pp_holder p)))%nat ->
  let '(d', p', h) := pass_record i rp d p in h <> 0 /\ In h (ho_pipelines (pp_holder p')) /\ shape p' /\ IN p'.
Proof.
  intros Sh Hin Hn Hi. rewrite record_pre.
  assert (Q : ho_pipeline (pp_holder (snd (pre_record i rp d p))) i <> 0 /\ shape (snd (pre_record i rp d p)) /\ IN (snd (pre_record i rp d p)) /\
     length (ho_sets (pp_holder (snd (pre_record i rp d p)))) = length (ho_sets (pp_holder p))).
  { pose proof (cl_pre _ _ shape_closed i rp d p (fun _ _ => I) Sh) as Sh'. cbn [snd] in Sh'.
    pose proof (cl_pre _ _ (static_closed (pp_images p) (pp_buffers p) (length (ho_sets (pp_holder p)))) i rp d p (fun _ _ => I) (conj eq_refl (conj eq_refl eq_refl))) as (_ & _ & St).
    pose proof (cl_pre _ _ (kind_closed (pp_kind p)) i rp d p (fun _ _ => I) eq_refl) as Kd. unfold kind_is in Kd.
    split; [|split; [exact Sh'|split; [|exact St]]].
    - unfold pre_record, compute_create. destruct (pp_kind p) eqn:Ek.
      + destruct (nth i (pp_initialised p) false) eqn:Ei; [apply (Hin Ek i Hi Ei)|].
        pose proof (cl_initialise _ _ next_closed (d, p) Hn) as N1. cbn [snd] in N1.
        pose proof (cl_initialise _ _ shape_closed (d, p) Sh) as S1. cbn [snd] in S1.
        pose proof (still_on (ho_initialise (pp_images p) (pp_buffers p)) (d, p) (dims_initialise _ _)) as (T1 & _). cbn [snd] in T1.
        destruct (on_holder (ho_initialise (pp_images p) (pp_buffers p)) (d, p)) as [d1 p1]. cbn [fst snd] in *.
        assert (L : (slot_of (pp_holder p1) i < length (ho_pipelines (pp_holder p1)))%nat) by (apply slot_in; [exact S1|rewrite (sets_still _ _ T1); exact Hi]).
        pose proof (create_slot (pipeline_info p1 i) i d1 (pp_holder p1) L) as C. unfold on_holder. destruct (ho_create (pipeline_info p1 i) i d1 (pp_holder p1)) as [d2 h2]. cbn [snd with_initialised with_holder pp_holder] in *. lia.
      + assert (X : 0 < dr_next (fst (match rp with Some rp => quad_initialise rp i (d, p) | None => (d, p) end)) /\
                    shape (snd (match rp with Some rp => quad_initialise rp i (d, p) | None => (d, p) end)) /\
                    length (ho_sets (pp_holder (snd (match rp with Some rp => quad_initialise rp i (d, p) | None => (d, p) end)))) = length (ho_sets (pp_holder p))).
        { destruct rp; [|auto]. split; [apply (cl_quad _ _ next_closed), Hn|]. split; [apply (cl_quad _ _ shape_closed), Sh|].
          apply (cl_quad _ _ (static_closed (pp_images p) (pp_buffers p) (length (ho_sets (pp_holder p)))) n i (d, p)). auto. }
        destruct X as (X1 & X2 & X3). apply guarded_slot; [exact X1|]. apply slot_in; [exact X2|rewrite X3; exact Hi].
      + assert (X : 0 < dr_next (fst (match rp with Some rp => mesh_initialise rp i (d, p) | None => (d, p) end)) /\
                    shape (snd (match rp with Some rp => mesh_initialise rp i (d, p) | None => (d, p) end)) /\
                    length (ho_sets (pp_holder (snd (match rp with Some rp => mesh_initialise rp i (d, p) | None => (d, p) end)))) = length (ho_sets (pp_holder p))).
        { destruct rp; [|auto]. split; [apply (cl_mesh _ _ next_closed I), Hn|]. split; [apply (cl_mesh _ _ shape_closed I), Sh|].
          apply (cl_mesh _ _ (static_closed (pp_images p) (pp_buffers p) (length (ho_sets (pp_holder p)))) I n i (d, p)). auto. }
        destruct X as (X1 & X2 & X3). apply guarded_slot; [exact X1|]. apply slot_in; [exact X2|rewrite X3; exact Hi].
    - intro Ec. rewrite Kd in Ec. intros j Hj. rewrite St in Hj. unfold pre_record, compute_create. rewrite Ec. destruct (nth i (pp_initialised p) false) eqn:Ei; [intro Hf; apply (Hin Ec j Hj Hf)|].
      pose proof (cl_initialise _ _ next_closed (d, p) Hn) as N1. cbn [snd] in N1.
      pose proof (cl_initialise _ _ shape_closed (d, p) Sh) as S1. cbn [snd] in S1.
      pose proof (still_on (ho_initialise (pp_images p) (pp_buffers p)) (d, p) (dims_initialise _ _)) as (T1 & T2 & _). cbn [snd] in T1, T2.
      assert (Q : forall j, ho_pipeline (pp_holder (snd (on_holder (ho_initialise (pp_images p) (pp_buffers p)) (d, p)))) j = ho_pipeline (pp_holder p) j).
      { intro k. unfold on_holder, ho_initialise. destruct (N.eqb (ho_layout (pp_holder p)) 0); reflexivity. }
      destruct (on_holder (ho_initialise (pp_images p) (pp_buffers p)) (d, p)) as [d1 p1]. cbn [fst snd] in *.
      assert (L : (slot_of (pp_holder p1) i < length (ho_pipelines (pp_holder p1)))%nat) by (apply slot_in; [exact S1|rewrite (sets_still _ _ T1); exact Hi]).
      pose proof (create_slot (pipeline_info p1 i) i d1 (pp_holder p1) L) as C. pose proof (create_other (pipeline_info p1 i) i j d1 (pp_holder p1)) as O.
      unfold on_holder. destruct (ho_create (pipeline_info p1 i) i d1 (pp_holder p1)) as [d2 h2]. cbn [snd with_initialised with_holder pp_holder pp_initialised] in *.
      rewrite nth_set_nth, T2. destruct (Nat.eqb_spec i j) as [E|E].
      + subst j. intros _. lia.
      + cbn [andb]. intro Hf. apply O; [rewrite Q; apply (Hin Ec j Hj Hf)|lia]. }
  destruct Q as (Q1 & Q2 & Q3 & Q4). destruct (pre_record i rp d p) as [d1 p1]. cbn [snd] in *.
  pose proof (still_on (ho_set (pp_images p) (pp_buffers p) i) (d1, p1) (dims_set _ _ i)) as (S1 & S2 & _). cbn [snd] in *.
  assert (Q5 : ho_pipelines (pp_holder (snd (on_holder (ho_set (pp_images p) (pp_buffers p) i) (d1, p1)))) = ho_pipelines (pp_holder p1)).
  { unfold on_holder, ho_set. destruct (N.eqb _ 0); reflexivity. }
  destruct (on_holder (ho_set (pp_images p) (pp_buffers p) i) (d1, p1)) as [d2 p2]. cbn [snd] in *.
  assert (Q6 : forall j, ho_pipeline (pp_holder p2) j = ho_pipeline (pp_holder p1) j).
  { intro j. destruct S1 as (_ & _ & _ & _ & E). unfold dims in E. injection E as E1 _ _. unfold ho_pipeline, slot_of. rewrite E1, Q5. reflexivity. }
  rewrite Q6. split; [exact Q1|]. split.
  - unfold ho_pipeline in *. rewrite Q5. apply nth_In. destruct (Nat.lt_ge_cases (slot_of (pp_holder p1) i) (length (ho_pipelines (pp_holder p1)))) as [L|L]; [exact L|].
    exfalso. apply Q1. apply nth_overflow. exact L.
  - split; [apply (shape_still p1); [exact S1|congruence|exact Q2]|]. intros Ec j Hj Hf. rewrite Q6. apply Q3.
    + destruct S1 as (_ & E & _). congruence. + rewrite <- (sets_still _ _ S1). exact Hj. + congruence.
Qed.
Lemma reset_bound i pc d p : shape p -> IN p -> 0 < dr_next d -> (i < length (ho_sets (pp_holder p)))%nat -> shape (snd (pass_reset i pc d p)) /\ IN (snd (pass_reset i pc d p)).
Proof.
  intros Sh Hin Hn Hi. split; [apply (cl_passreset _ _ shape_closed i pc d p Sh)|].
  pose proof (cl_passreset _ _ (kind_closed (pp_kind p)) i pc d p eq_refl) as Kd. unfold kind_is in Kd. intro Ec. rewrite Kd in Ec.
  unfold pass_reset.
  pose proof (cl_reset _ _ next_closed i (d, p) Hn) as N1.
  pose proof (still_on (ho_reset i) (d, p) (dims_reset i)) as (T1 & T2 & _). cbn [snd] in *.
  pose proof (cl_reset _ _ shape_closed i (d, p) Sh) as S1. cbn [snd] in S1.
  assert (Q : ho_pipelines (pp_holder (snd (on_holder (ho_reset i) (d, p)))) = ho_pipelines (pp_holder p) \/ ho_pipelines (pp_holder (snd (on_holder (ho_reset i) (d, p)))) = set_nth (slot_of (pp_holder p) i) 0 (ho_pipelines (pp_holder p))).
  { unfold on_holder, ho_reset. destruct (N.eqb _ 0); [left|right]; reflexivity. }
  destruct (on_holder (ho_reset i) (d, p)) as [d1 p0]. cbn [fst snd] in *.
  assert (Ek : pp_kind p0 = Compute) by (destruct T1 as (_ & X & _); congruence). rewrite Ek. clear Ek Kd.
  destruct (still_code p0 i pc) as (C1 & C2 & C3 & C4). set (p1 := with_code p0 i pc) in *. rewrite <- C4 in Q. rewrite <- C2 in T2.
  apply (fun a => still_trans _ _ _ a C1) in T1. apply (shape_still p0 p1 C1 (f_equal (@length bool) C2)) in S1. clearbody p1. clear C1 C2 C3 C4. unfold compute_create. cbn [snd].
  assert (L : (slot_of (pp_holder p1) i < length (ho_pipelines (pp_holder p1)))%nat) by (apply slot_in; [exact S1|rewrite (sets_still _ _ T1); exact Hi]).
  pose proof (create_slot (pipeline_info p1 i) i d1 (pp_holder p1) L) as C.
  assert (Cs : forall j, ho_pipeline (snd (ho_create (pipeline_info p1 i) i d1 (pp_holder p1))) j = if Nat.eqb (slot_of (pp_holder p1) i) (slot_of (pp_holder p1) j) then dr_next d1 else ho_pipeline (pp_holder p1) j).
  { intro j. unfold ho_create, fresh, ho_pipeline, slot_of in *. cbn [snd with_pipelines ho_pipelines ho_programs]. rewrite nth_set_nth. apply Nat.ltb_lt in L. rewrite L, andb_true_r. reflexivity. }
  unfold on_holder. destruct (ho_create (pipeline_info p1 i) i d1 (pp_holder p1)) as [d2 h2] eqn:Ecr. cbn [snd with_holder pp_holder pp_initialised] in *.
  intros j Hj Hf. rewrite Cs. destruct (Nat.eqb_spec (slot_of (pp_holder p1) i) (slot_of (pp_holder p1) j)) as [E|E]; [lia|].
  assert (Hj' : (j < length (ho_sets (pp_holder p)))%nat).
  { rewrite <- (sets_still _ _ T1). unfold ho_create, fresh in Ecr. injection Ecr as <- <-. exact Hj. }
  rewrite T2 in Hf. specialize (Hin Ec j Hj' Hf). destruct T1 as (_ & _ & _ & _ & T1). unfold dims in T1. injection T1 as U1 _ _.
  unfold ho_pipeline, slot_of in *. rewrite U1 in *. destruct Q as [Q|Q]; rewrite Q; [exact Hin|]. rewrite nth_set_nth.
  destruct (Nat.eqb_spec (if Nat.eqb (ho_programs (pp_holder p)) 1 then 0%nat else i) (if Nat.eqb (ho_programs (pp_holder p)) 1 then 0%nat else j)); [contradiction|]. exact Hin.
Qed.

(* Worlds. *)
Definition only_graph (g : N) (log : list pevent) : Prop := forall g' l, g' <> g -> mfind g' (pending [] log) = Some l -> l = [].
Definition UA (g : N) (w : pworld) : Prop :=
  WI false KPipeline w /\ each safe (dr_log (pw_driver w)) /\ only_graph g (dr_log (pw_driver w)) /\
  (forall id p, mfind id (pw_passes w) = Some p -> shape p /\ IN p).
Lemma WI_next b k w : WI b k w -> 0 < dr_next (pw_driver w). Proof. intros (_ & ((H & _) & _) & _). exact H. Qed.

(* the logs of a driver in between *)
Definition mid (w0 w : pworld) : Prop := exists es, dr_log (pw_driver w) = dr_log (pw_driver w0) ++ es /\ forallb calm es = true.
Lemma UA_record g w id i rp : UA g w -> record_sane w id i rp ->
  (forall p, mfind id (pw_passes w) = Some p -> pp_kind p = Mesh -> rp <> None -> idle w) ->
  UA g (fst (do_record w id i rp)) /\ mid w (fst (do_record w id i rp)) /\
  (forall id', id' <> id -> mfind id' (pw_passes (fst (do_record w id i rp))) = mfind id' (pw_passes w)) /\
  (forall h, In h (snd (do_record w id i rp)) -> h <> 0 /\ exists p, mfind id (pw_passes (fst (do_record w id i rp))) = Some p /\ In h (ho_pipelines (pp_holder p))).
Proof.
  intros (U1 & U2 & U3 & U4) (S1 & S2 & S3) Hm. pose proof (WI_record false KPipeline w id i rp U1 ltac:(discriminate)) as V1. unfold do_record in *.
  destruct (mfind id (pw_passes w)) as [p|] eqn:E.
  2:{ cbn. split; [split; [exact U1|split; [exact U2|split; [exact U3|exact U4]]]|]. split; [exists []; rewrite app_nil_r; auto|]. split; [auto|]. intros h []. }
  destruct (U4 id p E) as [Sh Hin]. pose proof (record_bound i rp (pw_driver w) p Sh Hin (WI_next _ _ _ U1) (S1 p E)) as B.
  set (M := pp_kind p = Mesh /\ rp <> None).
  pose proof (cl_pre _ _ (ext_closed M (pw_driver w)) i rp (pw_driver w) p (fun a b => conj a b) (ext_refl M _)) as X.
  apply (ext_set M (pw_driver w) (pp_images p) (pp_buffers p) i) in X. rewrite record_pre in *.
  destruct (on_holder (ho_set (pp_images p) (pp_buffers p) i) (pre_record i rp (pw_driver w) p)) as [d' p']. cbn [fst snd] in *.
  destruct B as (B1 & B2 & B3 & B4).
  destruct (ext_safe M _ _ X ltac:(intros [X1 X2]; apply (Hm p eq_refl X1 X2)) U2) as [Sf _]. destruct X as (es & X1 & X2 & X3).
  split; [|split; [exists es; auto|split]].
  - split; [exact V1|]. split; [exact Sf|]. split; [cbn; rewrite X1; unfold only_graph; rewrite pending_app, pending_calm by exact X2; exact U3|].
    cbn [pw_passes]. intros id' q. rewrite mfind_mput. destruct (N.eqb id' id); [intro Y; injection Y as <-; auto|apply U4].
  - intros id' Ne. cbn [pw_passes]. rewrite mfind_mput. destruct (N.eqb_spec id' id); [contradiction|reflexivity].
  - intros h [<-|[]]. split; [exact B1|]. exists p'. cbn [pw_passes]. rewrite mfind_mput_same. auto.
Qed.
Lemma mid_trans a b c : mid a b -> mid b c -> mid a c.
Proof. intros (e1 & H1 & H2) (e2 & H3 & H4). exists (e1 ++ e2). rewrite H3, H1, app_assoc, forallb_app, H2, H4. auto. Qed.
Lemma mid_idle a b : mid a b -> idle a -> idle b.
Proof. intros (es & H1 & H2) H h. rewrite H1, flight_calm by exact H2. apply H. Qed.
Lemma UA_records g l : forall w, UA g w -> records_sane w l -> idle w -> NoDup (map (fun x => fst (fst x)) l) ->
  UA g (fst (do_records w l)) /\ mid w (fst (do_records w l)) /\
  (forall id, ~ In id (map (fun x => fst (fst x)) l) -> mfind id (pw_passes (fst (do_records w l))) = mfind id (pw_passes w)) /\
  (forall h, In h (snd (do_records w l)) -> h <> 0 /\ exists id p, mfind id (pw_passes (fst (do_records w l))) = Some p /\ In h (ho_pipelines (pp_holder p))).
Proof.
  induction l as [|[[id i] rp] l IH]; intros w U S I0 Nd.
  - cbn. split; [exact U|]. split; [exists []; rewrite app_nil_r; auto|]. split; [auto|]. intros h [].
  - destruct S as [S1 S2]. cbn [map fst] in Nd. inversion Nd as [|? ? N1 N2]; subst.
    pose proof (UA_record g w id i rp U S1 (fun _ _ _ _ => I0)) as (R1 & R2 & R3 & R4). cbn [do_records map fst].
    destruct (do_record w id i rp) as [w1 b1]. cbn [fst snd] in *.
    destruct (IH w1 R1 S2 (mid_idle _ _ R2 I0) N2) as (Q1 & Q2 & Q3 & Q4). destruct (do_records w1 l) as [w2 b2]. cbn [fst snd] in *.
    split; [exact Q1|]. split; [apply (mid_trans _ _ _ R2 Q2)|]. split.
    + intros id' Hn. rewrite Q3 by (intro X; apply Hn; right; exact X). apply R3. intro X. apply Hn. left. congruence.
    + intros h X. apply in_app_or in X. destruct X as [X|X]; [|apply Q4, X]. destruct (R4 h X) as (H1 & p & H2 & H3). split; [exact H1|]. exists id, p. split; [rewrite Q3 by exact N1; exact H2|exact H3].
Qed.
Lemma owned_alive w h id p : WI false KPipeline w -> mfind id (pw_passes w) = Some p -> In h (ho_pipelines (pp_holder p)) -> h <> 0 ->
  exists l, alive_after KPipeline (dr_log (pw_driver w)) = Some l /\ In h l.
Proof.
  intros (H1 & (_ & l & L1 & L2 & L3 & L4) & _) Hf Hi Hn. exists l. split; [exact L1|]. specialize (L4 h Hn). cbn [rel] in L4.
  pose proof (total_in KPipeline id p _ h H1 Hf) as T. unfold own in T. cbn [owned] in T. apply (count_occ_In N.eq_dec) in Hi. apply (count_occ_In N.eq_dec). lia.
Qed.
Lemma idle_waited g w : only_graph g (dr_log (pw_driver w)) -> idle (on_driver (fun d => log d [PWaited g]) w).
Proof.
  intros U h (g' & l & H1 & H2). cbn [on_driver pw_driver log dr_log] in H1. rewrite pending_app in H1. cbn [pending] in H1. rewrite mfind_mput in H1.
  destruct (N.eqb_spec g' g) as [E|E]; [injection H1 as <-; destruct H2|]. rewrite (U g' l E H1) in H2. destruct H2.
Qed.
Lemma UA_waited g g' w : UA g w -> UA g (on_driver (fun d => log d [PWaited g']) w).
Proof.
  intros (U1 & U2 & U3 & U4). split; [apply WI_driver; [intro r; apply inv_log; reflexivity|exact U1]|].
  split; [cbn; apply each_snoc; [exact U2|exact I]|]. split; [|exact U4]. intros x l Hx. cbn. rewrite pending_app. cbn [pending]. rewrite mfind_mput.
  destruct (N.eqb x g'); [intro E; injection E as <-; reflexivity|apply U3, Hx].
Qed.
Lemma UA_step g w o : UA g w -> op_sane w o -> op_one_graph g w o -> UA g (pstep w o).
Proof.
  intros U S O. pose proof U as (U1 & U2 & U3 & U4). pose proof (WI_step false KPipeline w o U1 ltac:(discriminate)) as V1.
  destruct o as [id gr kd n m a c cr|id i rp|id i pc|id|g' l|g']; cbn [pstep] in *.
  - destruct (mfind id (pw_passes w)) eqn:E; [exact U|]. split; [exact V1|]. split; [exact U2|]. split; [exact U3|]. cbn [pw_passes]. intros id' q. rewrite mfind_mput.
    destruct (N.eqb id' id); [|apply U4]. intro X. injection X as <-. cbn in S. destruct S as [S1 S2]. split.
    + unfold shape, dims. cbn. rewrite !repeat_length. repeat split; auto.
    + intros _ j _ X. cbn in X. rewrite nth_repeat in X. discriminate.
  - apply (UA_record g w id i rp U S O).
  - destruct (mfind id (pw_passes w)) as [p|] eqn:E; [|exact U].
    destruct (U4 id p E) as [Sh Hin]. destruct (reset_bound i pc (pw_driver w) p Sh Hin (WI_next _ _ _ U1) (S p E)) as [B1 B2].
    pose proof (cl_passreset _ _ (ext_closed False (pw_driver w)) i pc (pw_driver w) p (ext_refl False _)) as X.
    destruct (pass_reset i pc (pw_driver w) p) as [d' p']. cbn [fst snd] in *.
    destruct (ext_safe False _ _ X ltac:(intros []) U2) as [Sf _]. destruct X as (es & X1 & X2 & X3).
    split; [exact V1|]. split; [exact Sf|]. split; [cbn; rewrite X1; unfold only_graph; rewrite pending_app, pending_calm by exact X2; exact U3|].
    cbn [pw_passes]. intros id' q. rewrite mfind_mput. destruct (N.eqb id' id); [intro Y; injection Y as <-; auto|apply U4].
  - destruct (mfind id (pw_passes w)) as [p|] eqn:E; [|exact U]. cbn in O.
    set (es := destroy_event KPool (ho_pool (pp_holder p)) ++ flat_map (destroy_event KPipeline) (ho_pipelines (pp_holder p))
          ++ destroy_event KLayout (ho_layout (pp_holder p)) ++ destroy_event KSetLayout (ho_setLayout (pp_holder p))) in *.
    pose proof (cleanup_calm (pp_holder p)) as Cc. fold es in Cc.
    assert (X : ext True (pw_driver w) (log (pw_driver w) es)) by (exists es; auto).
    destruct (ext_safe True _ _ X (fun _ => O) U2) as [Sf _].
    split; [exact V1|]. split; [exact Sf|]. split; [cbn; fold es; unfold only_graph; rewrite pending_app, pending_calm by exact Cc; exact U3|].
    cbn [pw_passes]. intros id' q. rewrite merase_find. destruct (N.eqb id' id); [discriminate|apply U4].
  - destruct O as [-> Nd]. unfold do_run in *. cbn [op_sane] in S. pose proof (UA_waited g g w U) as W0. pose proof (idle_waited g w U3) as I0. set (w0 := on_driver _ w) in *.
    destruct (UA_records g l w0 W0 S I0 Nd) as (R1 & R2 & R3 & R4). destruct (do_records w0 l) as [w1 bound]. cbn [fst snd] in *.
    pose proof (mid_idle _ _ R2 I0) as I1. destruct R1 as (A1 & A2 & A3 & A4).
    set (L := dr_log (pw_driver w1)) in *. set (q := dr_queue (pw_driver w1)) in *.
    assert (Cq : forallb calm (map (PDestroyed KPipeline) q) = true) by (apply forallb_forall; intros e X; apply in_map_iff in X; destruct X as (y & <- & _); reflexivity).
    assert (Ac : WI false KPipeline (on_driver clear_queue w1)) by (apply WI_driver; [intro r; apply inv_clear|exact A1]).
    split; [exact V1|]. split.
    + cbn. fold L q. apply each_snoc.
      * apply each_app; [exact A2|]. intros l1 e l2 X. assert (Y : In e (map (PDestroyed KPipeline) q)) by (rewrite X; apply in_or_app; right; left; reflexivity).
        apply in_map_iff in Y. destruct Y as (y & <- & _). cbn. rewrite X, forallb_app in Cq. apply andb_prop in Cq. rewrite flight_calm by apply Cq. apply I1.
      * cbn. pose proof Ac as (_ & (_ & la & L1 & _) & _). exists la. split; [exact L1|]. intros h X. destruct (R4 h X) as (H1 & id & p & H2 & H3).
        destruct (owned_alive (on_driver clear_queue w1) h id p Ac H2 H3 H1) as (l' & L2 & L3). cbn in L1, L2. rewrite L1 in L2. injection L2 as <-. exact L3.
    + split; [|exact A4]. intros g' l' Hg. cbn. fold L q. rewrite !pending_app, (pending_calm (map (PDestroyed KPipeline) q)) by exact Cq. cbn [pending]. rewrite mfind_mput.
      destruct (N.eqb_spec g' g); [contradiction|]. apply A3, Hg.
  - apply UA_waited, U.
Qed.
Lemma UA_run g ops : forall w, UA g w -> sane w ops -> one_graph g w ops -> UA g (prun w ops).
Proof.
  induction ops as [|o r IH]; intros w H Hs Ho; [exact H|]. change (prun w (o :: r)) with (prun (pstep w o) r). destruct Hs as [S1 S2]. destruct Ho as [O1 O2].
  apply IH; [apply UA_step; assumption|exact S2|exact O2].
Qed.
Lemma UA_new g : UA g new_pworld.
Proof. split; [apply WI_new|]. split; [intros l1 e l2 E; destruct l1; discriminate|]. split; [intros g' l _ E; discriminate|discriminate]. Qed.
