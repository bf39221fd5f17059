(* C89, C90, C91: what the passes bind: the render pass, the program and the layout of their pipeline, and their descriptor set. *)
From Verif Require Import Spec_Pipe Proof_Pipe11 Props_Pipe.
From Coq Require Import Lia ZifyBool ZifyNat ZifyN PeanoNat.
Local Open Scope N_scope.

(* two passes of each kind, resets with and without a program, frames *)
Definition ex_pre : list pop := [ONew 1 1 Compute 2 2 ex_images [] None; ORun 1 [(1, 0%nat, None); (1, 1%nat, None)]].
Definition ex_quad : list pop := [ORun 1 [(1, 0%nat, None); (2, 0%nat, Some 50)]; OReset 2 0 (Some 9); ORun 1 [(2, 0%nat, Some 51)]; OReset 1 1 (Some 7); OReset 2 0 None].
Definition ex_two : list pop := ex_pre ++ ONew 2 1 Quad 1 1 ex_images ex_buffers None :: ex_quad.
Lemma ex_two_sane rp : rp = None \/ rp = Some 52 -> sane new_pworld (ex_two ++ [ORecord 2 0 rp]).
Proof. intros [ -> | -> ]; unfold ex_two, ex_pre, ex_quad; cbn [app]; sane_tac. Qed.
Lemma ex_two_creators : Forall op_creator_ok ex_two.
Proof. unfold ex_two, ex_pre, ex_quad. cbn [app]. repeat (constructor; [try exact I; intro X; contradiction|]). constructor. Qed.

(* C89: the pipeline bound by a quad or a mesh pass that has one pass index was created for the last render pass made for the pass. *)
Theorem C89_render_pass_partial : forall pre post id g k n a c cr i rp h l s,
  let ops := pre ++ ONew id g k n 1 a c cr :: post in
  mfind id (pw_passes (prun new_pworld pre)) = None -> ~ In (ODestroy id) post -> k <> Compute ->
  sane new_pworld (ops ++ [ORecord id i rp]) -> Forall op_creator_ok ops ->
  binds ops id i rp = Some (h, l, s) ->
  exists program renderPass layout, made_as (calls (ops ++ [ORecord id i rp])) h = Some (program, renderPass, layout) /\
    last_made id (ops ++ [ORecord id i rp]) = Some renderPass.
Proof.
  intros pre post id g k n a c cr i rp h l s ops E D K S C B. destruct (last_record ops id i rp h l s S C B) as (p & r & X1 & X2 & X3 & X4 & X5 & X6 & X7 & X8 & _).
  destruct (pass_of pre post id g k n 1 a c cr i rp h l s E D S C B) as (q & Y1 & Y2 & Y3 & Y4 & Y5 & Y6). unfold ops in X1. rewrite X1 in Y1. injection Y1 as <-.
  exists (getProgram p i), r, l. split; [exact X6|]. apply X8; [congruence|exact Y5].
Qed.
Print Assumptions C89_render_pass_partial.
Example C89_example : exists h1 h2 l s, h1 <> h2 /\
  binds ex_two 2 0 None = Some (h1, l, s) /\ made_as (calls (ex_two ++ [ORecord 2 0 None])) h1 = Some (9, 51, l) /\
  binds ex_two 2 0 (Some 52) = Some (h2, l, s) /\ made_as (calls (ex_two ++ [ORecord 2 0 (Some 52)])) h2 = Some (9, 52, l) /\
  mfind 2 (pw_passes (prun new_pworld ex_pre)) = None /\ ~ In (ODestroy 2) ex_quad /\
  sane new_pworld (ex_two ++ [ORecord 2 0 None]) /\ sane new_pworld (ex_two ++ [ORecord 2 0 (Some 52)]) /\ Forall op_creator_ok ex_two.
Proof.
  exists 16, 17, 9, 12. split; [discriminate|]. do 4 (split; [vm_compute; reflexivity|]). split; [vm_compute; reflexivity|].
  split; [unfold ex_quad; cbn [In]; intuition discriminate|]. split; [apply ex_two_sane; auto|]. split; [apply ex_two_sane; auto|exact ex_two_creators].
Qed.

(* C89 fails with two pass indices, whose render passes are different: with one program, the pipeline that both indices share
   was created for the render pass of the last index prepared; *)
Theorem C89_shared_pipeline_refuted : exists ops id i h l s program r r', sane new_pworld (ops ++ [ORecord id i None]) /\ Forall op_creator_ok ops /\
  (forall x, ~ In (OReset id x None) ops) /\
  binds ops id i None = Some (h, l, s) /\ made_as (calls (ops ++ [ORecord id i None])) h = Some (program, r, l) /\ last_made_at id i ops = Some r' /\ r <> r'.
Proof.
  exists [ONew 1 1 Quad 1 2 ex_images ex_buffers None; ORecord 1 0 (Some 50); ORecord 1 1 (Some 51)], 1, 0%nat, 6, 2, 5, 0, 51, 50.
  split; [cbn [app]; sane_tac|]. split; [repeat (constructor; [try exact I; intro X; contradiction|]); constructor|]. split; [intro x; cbn [In]; intuition discriminate|].
  split; [vm_compute; reflexivity|]. split; [vm_compute; reflexivity|]. split; [reflexivity|discriminate].
Qed.
Print Assumptions C89_shared_pipeline_refuted.
(* with one program per index, the pipeline of an index that is reset is created for the render pass of the last index prepared; *)
Theorem C89_reset_refuted : exists ops id i h l s program r r', sane new_pworld (ops ++ [ORecord id i None]) /\ Forall op_creator_ok ops /\
  binds ops id i None = Some (h, l, s) /\ made_as (calls (ops ++ [ORecord id i None])) h = Some (program, r, l) /\ last_made_at id i ops = Some r' /\ r <> r'.
Proof.
  exists [ONew 1 1 Quad 2 2 ex_images ex_buffers None; ORecord 1 0 (Some 50); ORecord 1 1 (Some 51); OReset 1 0 None], 1, 0%nat, 8, 2, 5, 0, 51, 50.
  split; [cbn [app]; sane_tac|]. split; [repeat (constructor; [try exact I; intro X; contradiction|]); constructor|].
  split; [vm_compute; reflexivity|]. split; [vm_compute; reflexivity|]. split; [reflexivity|discriminate].
Qed.
Print Assumptions C89_reset_refuted.
(* and a mesh destroys the pipelines of all its indices when one of them is prepared. *)
Theorem C89_mesh_refuted : exists ops id i h l s program r r', sane new_pworld (ops ++ [ORecord id i None]) /\ Forall op_creator_ok ops /\
  (forall x, ~ In (OReset id x None) ops) /\
  binds ops id i None = Some (h, l, s) /\ made_as (calls (ops ++ [ORecord id i None])) h = Some (program, r, l) /\ last_made_at id i ops = Some r' /\ r <> r'.
Proof.
  exists [ONew 1 1 Mesh 2 2 [] [] None; ORecord 1 0 (Some 50); ORecord 1 1 (Some 51)], 1, 0%nat, 11, 7, 12, 0, 51, 50.
  split; [cbn [app]; sane_tac|]. split; [repeat (constructor; [try exact I; intro X; contradiction|]); constructor|]. split; [intro x; cbn [In]; intuition discriminate|].
  split; [vm_compute; reflexivity|]. split; [vm_compute; reflexivity|]. split; [reflexivity|discriminate].
Qed.
Print Assumptions C89_mesh_refuted.

(* C89: whatever the number of pass indices, the recording that makes a render pass creates the pipeline it binds, for this
   render pass; for a quad, when the handle is not the one of the last render pass made. *)
Theorem C89_made_anew : forall pre post id g k n m a c cr i r h l s,
  let ops := pre ++ ONew id g k n m a c cr :: post in
  mfind id (pw_passes (prun new_pworld pre)) = None -> ~ In (ODestroy id) post -> k <> Compute ->
  (k = Quad -> last_made id ops <> Some r) ->
  sane new_pworld (ops ++ [ORecord id i (Some r)]) -> Forall op_creator_ok ops ->
  binds ops id i (Some r) = Some (h, l, s) ->
  made_as (calls ops) h = None /\ exists program, made_as (calls (ops ++ [ORecord id i (Some r)])) h = Some (program, r, l).
Proof.
  intros pre post id g k n m a c cr i r h l s ops E D K Q S C B.
  destruct (last_record ops id i (Some r) h l s S C B) as (p & r0 & X1 & X2 & X3 & X4 & X5 & X6 & _).
  destruct (pass_of pre post id g k n m a c cr i (Some r) h l s E D S C B) as (q & Y1 & Y2 & _). unfold ops in X1. rewrite X1 in Y1. injection Y1 as <-.
  pose proof S as S0. apply sane_app in S0. destruct S0 as [S1 [(S2 & S3 & S4) _]].
  pose proof (WG_run ops new_pworld _ WG_new S1 C) as G.
  fold ops in X1. unfold calls in *. rewrite prun_app in *. cbn [prun fold_left pstep] in *. fold (prun new_pworld ops) in *.
  set (w := prun new_pworld ops) in *. unfold do_record in *. destruct (mfind id (pw_passes w)) as [p0|] eqn:E0; [|cbn [fst] in X1; congruence].
  destruct (proj2 G id p0 E0) as [PG M].
  assert (Kp : pp_kind p0 = pp_kind p).
  { pose proof (record_good i (Some r) (pw_driver w) p0 PG (S2 p0 E0) (S3 p0 eq_refl) S4) as R. destruct (pass_record i (Some r) (pw_driver w) p0) as [[d' p'] b]. cbn [fst] in X1.
    cbn [pw_passes] in X1. rewrite mfind_mput_same in X1. injection X1 as <-. destruct R as (_ & _ & _ & (_ & R & _) & _). congruence. }
  assert (Qp : pp_kind p0 = Quad -> pp_prepared p0 = true -> pp_renderPass p0 <> r).
  { intros Kq Pr Er. apply Q; [congruence|]. rewrite <- Er. apply M; [congruence|exact Pr]. }
  pose proof (record_young i r (pw_driver w) p0 PG (S2 p0 E0) ltac:(congruence) (S4 r eq_refl) Qp) as R.
  pose proof (record_good i (Some r) (pw_driver w) p0 PG (S2 p0 E0) (S3 p0 eq_refl) S4) as R'.
  destruct (pass_record i (Some r) (pw_driver w) p0) as [[d' p'] b]. cbn [fst pw_passes pw_driver] in *. rewrite mfind_mput_same in X1. injection X1 as <-.
  destruct R' as (_ & Eb & _). unfold ho_recordInto in X2. injection X2 as Xh Xl Xs. rewrite <- Xh in Eb. subst b.
  destruct R as [R|(R1 & program & l0 & R2)]; [contradiction|]. split.
  - destruct (made_as (dr_log (pw_driver w)) h) as [y|] eqn:Ey; [|reflexivity]. pose proof (proj2 (proj1 G) h y Ey). lia.
  - exists program. rewrite R2 in X6 |- *. injection X6 as _ _ <-. reflexivity.
Qed.
Print Assumptions C89_made_anew.
Definition ex_many (k : pass_kind) : list pop := [ONew 1 1 k 1 2 ex_images ex_buffers None; ORecord 1 0 (Some 50); ORecord 1 1 (Some 51)].
Example C89_anew_example : forall k, k = Quad \/ k = Mesh ->
  sane new_pworld (ex_many k ++ [ORecord 1 0 (Some 52)]) /\ last_made 1 (ex_many k) <> Some 52 /\
  exists h l s, binds (ex_many k) 1 0 (Some 52) = Some (h, l, s) /\ made_as (calls (ex_many k ++ [ORecord 1 0 (Some 52)])) h = Some (0, 52, l).
Proof.
  intros k [ -> | -> ]; (split; [unfold ex_many; cbn [app]; sane_tac|]); (split; [discriminate|]); eexists _, _, _; (split; vm_compute; reflexivity).
Qed.
(* C89 fails when the driver gives the handle of the render pass that was just destroyed to the new one: a quad keeps the
   pipeline created for the destroyed render pass, with its viewport and its blend state. *)
Theorem C89_handle_reuse_refuted : exists ops id i r h l s, sane new_pworld (ops ++ [ORecord id i (Some r)]) /\ Forall op_creator_ok ops /\
  binds ops id i (Some r) = Some (h, l, s) /\ made_as (calls ops) h <> None.
Proof.
  exists [ONew 1 1 Quad 1 1 ex_images ex_buffers None; ORecord 1 0 (Some 50)], 1, 0%nat, 50. eexists _, _, _.
  split; [cbn [app]; sane_tac|]. split; [repeat (constructor; [try exact I; intro X; contradiction|]); constructor|].
  split; [vm_compute; reflexivity|vm_compute; discriminate].
Qed.
Print Assumptions C89_handle_reuse_refuted.

(* C90: without a program creator, the pipeline bound for an index was created from the last program given for this index. *)
Theorem C90_program_partial : forall pre post id g k n m a c i rp h l s,
  let ops := pre ++ ONew id g k n m a c None :: post in
  mfind id (pw_passes (prun new_pworld pre)) = None -> ~ In (ODestroy id) post ->
  sane new_pworld (ops ++ [ORecord id i rp]) -> Forall op_creator_ok ops ->
  binds ops id i rp = Some (h, l, s) ->
  exists program renderPass layout, made_as (calls (ops ++ [ORecord id i rp])) h = Some (program, renderPass, layout) /\
    program = last_given id n i post.
Proof.
  intros pre post id g k n m a c i rp h l s ops E D S C B. destruct (last_record ops id i rp h l s S C B) as (p & r & X1 & X2 & X3 & X4 & X5 & X6 & _).
  destruct (pass_of pre post id g k n m a c None i rp h l s E D S C B) as (q & Y1 & Y2 & Y3 & Y4 & Y5 & Y6). unfold ops in X1. rewrite X1 in Y1. injection Y1 as <-.
  exists (getProgram p i), r, l. split; [exact X6|exact Y6].
Qed.
Print Assumptions C90_program_partial.
(* one program per index, shared programs *)
Definition ex_programs (n : nat) : list pop := [ONew 1 1 Compute n 2 ex_images [] None; OReset 1 1 (Some 8); ORun 1 [(1, 1%nat, None); (1, 0%nat, None)]; OReset 1 0 (Some 9)].
Example C90_example : 
  option_map (fun x => made_as (calls (ex_programs 2 ++ [ORecord 1 0 None])) (fst (fst x))) (binds (ex_programs 2) 1 0 None) = Some (Some (9, 0, 3)) /\
  option_map (fun x => made_as (calls (ex_programs 2 ++ [ORecord 1 1 None])) (fst (fst x))) (binds (ex_programs 2) 1 1 None) = Some (Some (8, 0, 3)) /\
  option_map (fun x => made_as (calls (ex_programs 1 ++ [ORecord 1 1 None])) (fst (fst x))) (binds (ex_programs 1) 1 1 None) = Some (Some (9, 0, 3)) /\
  (forall n i, (n = 1 \/ n = 2)%nat -> (i < 2)%nat -> sane new_pworld (ex_programs n ++ [ORecord 1 i None])).
Proof.
  split; [vm_compute; reflexivity|]. split; [vm_compute; reflexivity|]. split; [vm_compute; reflexivity|].
  intros n i [ -> | -> ] Hi; (destruct i as [|[|i]]; [| |lia]); unfold ex_programs; cbn [app]; sane_tac.
Qed.
(* C90: with a program creator, the pipeline was created from the program of the creator for the index. *)
Theorem C90_creator : forall pre post id g k n m a c f i rp h l s,
  let ops := pre ++ ONew id g k n m a c (Some f) :: post in
  mfind id (pw_passes (prun new_pworld pre)) = None -> ~ In (ODestroy id) post ->
  sane new_pworld (ops ++ [ORecord id i rp]) -> Forall op_creator_ok ops ->
  binds ops id i rp = Some (h, l, s) ->
  exists renderPass layout, made_as (calls (ops ++ [ORecord id i rp])) h = Some (f i, renderPass, layout).
Proof.
  intros pre post id g k n m a c f i rp h l s ops E D S C B. destruct (last_record ops id i rp h l s S C B) as (p & r & X1 & X2 & X3 & X4 & X5 & X6 & _).
  destruct (pass_of pre post id g k n m a c (Some f) i rp h l s E D S C B) as (q & Y1 & Y2 & Y3 & Y4 & Y5 & Y6). unfold ops in X1. rewrite X1 in Y1. injection Y1 as <-.
  exists r, l. rewrite <- Y6. exact X6.
Qed.
Print Assumptions C90_creator.
(* C90 fails with a creator: the program given to resetPipeline is not used. *)
Definition ex_creator : list pop := [ONew 1 1 Compute 1 1 ex_images [] (Some (fun i => 100 + N.of_nat i)); ORun 1 [(1, 0%nat, None)]; OReset 1 0 (Some 9)].
Theorem C90_creator_refuted : exists ops id i h l s r program, sane new_pworld (ops ++ [ORecord id i None]) /\ Forall op_creator_ok ops /\
  binds ops id i None = Some (h, l, s) /\ made_as (calls (ops ++ [ORecord id i None])) h = Some (program, r, l) /\ program <> last_given id 1 i ops.
Proof.
  exists ex_creator, 1, 0%nat, 6, 2, 5, 0, 100. split; [unfold ex_creator; cbn [app]; sane_tac|].
  split; [unfold ex_creator; repeat (constructor; [try exact I; intros _; apply le_n|]); constructor|].
  split; [vm_compute; reflexivity|]. split; [vm_compute; reflexivity|discriminate].
Qed.
Print Assumptions C90_creator_refuted.

(* C91: a pass binds its descriptor set with the layout with which its pipeline was created, which exists, and the set was
   allocated from a pool that exists and written with the resources of the pass for this index. *)
Theorem C91_bound_together : forall pre post id g k n m a c cr i rp h l s,
  let ops := pre ++ ONew id g k n m a c cr :: post in
  mfind id (pw_passes (prun new_pworld pre)) = None -> ~ In (ODestroy id) post ->
  sane new_pworld (ops ++ [ORecord id i rp]) -> Forall op_creator_ok ops ->
  binds ops id i rp = Some (h, l, s) ->
  let log := calls (ops ++ [ORecord id i rp]) in
  (exists program renderPass, made_as log h = Some (program, renderPass, l)) /\ living KLayout log l /\
  (exists pool setLayout, In (PAllocated pool setLayout s) log /\ living KPool log pool) /\ In (PUpdated s (set_writes a c i)) log.
Proof.
  intros pre post id g k n m a c cr i rp h l s ops E D S C B. destruct (last_record ops id i rp h l s S C B) as (p & r & X1 & X2 & X3 & X4 & X5 & X6 & X7 & X8 & X9 & Xp & Xa & Xu).
  destruct (pass_of pre post id g k n m a c cr i rp h l s E D S C B) as (q & Y1 & Y2 & Y3 & Y4 & Y5 & Y6). unfold ops in X1. rewrite X1 in Y1. injection Y1 as <-.
  split; [exists (getProgram p i), r; exact X6|]. split; [exact X9|]. split; [exists (ho_pool (pp_holder p)), (ho_setLayout (pp_holder p)); split; assumption|].
  rewrite <- Y3, <- Y4. exact Xu.
Qed.
Print Assumptions C91_bound_together.
Example C91_example : binds ex_two 2 0 None = Some (16, 9, 12) /\ In (PAllocated 10 8 12) (calls (ex_two ++ [ORecord 2 0 None])) /\
  length (set_writes ex_images ex_buffers 0) = 4%nat.
Proof. split; [vm_compute; reflexivity|]. split; [vm_compute; repeat (first [left; reflexivity|right])|reflexivity]. Qed.
(* C91: but a compute pass reset before it was recorded creates a pipeline without a layout. *)
Theorem C91_reset_first_refuted : exists ops h program, sane new_pworld ops /\ In (PPipeline h program 0 0) (calls ops).
Proof. exists [ONew 1 1 Compute 1 1 ex_images [] None; OReset 1 0 None], 1, 0. split; [sane_tac|]. vm_compute. auto. Qed.
Print Assumptions C91_reset_first_refuted.

(* C89, C90, C91: a run waits for the graph, records the passes one after the other and submits what they bound: the theorems
   above apply to each pass of a run, with the operations before the run, the wait and the recordings before it. *)
Theorem C91_in_runs : forall ops g l1 id i rp l2 h l s,
  let run := ORun g (l1 ++ (id, i, rp) :: l2) in
  let before := ops ++ OWait g :: map (fun x => ORecord (fst (fst x)) (snd (fst x)) (snd x)) l1 in
  sane new_pworld (ops ++ [run]) -> binds before id i rp = Some (h, l, s) ->
  sane new_pworld (before ++ [ORecord id i rp]) /\
  (exists log b1 b2, calls (ops ++ [run]) = log ++ [PSubmitted g (b1 ++ h :: b2)]) /\
  (forall x, made_as (calls (before ++ [ORecord id i rp])) h = Some x -> made_as (calls (ops ++ [run])) h = Some x).
Proof.
  intros ops g l1 id i rp l2 h l s run before S B.
  assert (Em : map (fun x : N * nat * option N => ORecord (fst (fst x)) (snd (fst x)) (snd x)) l1 = map record_op l1) by (apply map_ext; intros [[? ?] ?]; reflexivity).
  unfold before in *. rewrite Em in *. clear Em before.
  set (w0 := on_driver (fun d => log d [PWaited g]) (prun new_pworld ops)).
  assert (Ew : forall r, prun new_pworld (ops ++ OWait g :: r) = prun w0 r) by (intro r; rewrite prun_app; reflexivity).
  assert (Er : prun new_pworld ((ops ++ OWait g :: map record_op l1) ++ [ORecord id i rp]) = fst (do_record (prun w0 (map record_op l1)) id i rp)).
  { rewrite <- app_assoc. cbn [app]. rewrite Ew, prun_app. reflexivity. }
  assert (Ss : forall (l1 : list (N * nat * option N)) l2 w, records_sane w (l1 ++ l2) -> sane w (map record_op l1) /\ records_sane (prun w (map record_op l1)) l2).
  { clear. induction l1 as [|[[id i] rp] l1 IH]; intros l2 w H; [split; [exact I|exact H]|]. destruct H as [H1 H2]. destruct (IH l2 _ H2) as [A B]. split; [split; [exact H1|exact A]|exact B]. }
  apply sane_app in S. destruct S as [S0 [S1 _]]. cbn [op_sane run] in S1. fold w0 in S1. destruct (Ss l1 _ w0 S1) as [Sa [Sb _]].
  split; [|].
  { rewrite <- app_assoc. cbn [app]. apply sane_app. split; [exact S0|]. split; [exact I|]. apply sane_app. split; [exact Sa|]. split; [exact Sb|exact I]. }
  assert (Hb : snd (do_record (prun w0 (map record_op l1)) id i rp) = [h]).
  { unfold binds in B. rewrite Er in B. clear - B. unfold do_record in *. destruct (mfind id (pw_passes (prun w0 (map record_op l1)))) as [p0|] eqn:E0.
    - unfold pass_record in *. destruct (on_holder _ _) as [d2 p2]. cbn in *. rewrite mfind_mput_same in B. cbn in B. injection B as B1 B2 B3. congruence.
    - cbn in B. rewrite E0 in B. discriminate. }
  pose proof (records_bind l1 w0 id i rp l2) as Rb. rewrite Hb in Rb. pose proof (records_are (l1 ++ (id, i, rp) :: l2) w0) as Ra.
  assert (Ec : calls (ops ++ [run]) = dr_log (pw_driver (prun w0 (map record_op (l1 ++ (id, i, rp) :: l2)))) ++
      map (PDestroyed KPipeline) (dr_queue (pw_driver (prun w0 (map record_op (l1 ++ (id, i, rp) :: l2))))) ++ [PSubmitted g (snd (do_records w0 (l1 ++ (id, i, rp) :: l2)))]).
  { unfold calls. rewrite prun_app. cbn [prun fold_left pstep run]. fold (prun new_pworld ops). unfold do_run. fold w0. rewrite <- Ra. destruct (do_records w0 (l1 ++ (id, i, rp) :: l2)) as [w1 bound].
    cbn. rewrite <- app_assoc. reflexivity. }
  split.
  - rewrite Ec, Rb. eexists _, _, _. rewrite app_assoc. reflexivity.
  - intros x Hx. rewrite Ec, made_as_app. unfold calls in Hx. rewrite Er in Hx.
    assert (Et : prun w0 (map record_op (l1 ++ (id, i, rp) :: l2)) = fst (do_records (fst (do_record (prun w0 (map record_op l1)) id i rp)) l2)).
    { rewrite map_app, prun_app, records_are. reflexivity. }
    rewrite Et. clear - Hx. revert Hx. generalize (fst (do_record (prun w0 (map record_op l1)) id i rp)). intros w Hx.
    assert (X : forall l w, exists es, dr_log (pw_driver (fst (do_records w l))) = dr_log (pw_driver w) ++ es).
    { clear. induction l as [|[[id i] rp] l IH]; intro w; [exists []; rewrite app_nil_r; reflexivity|]. cbn [do_records].
      assert (Y : exists es, dr_log (pw_driver (fst (do_record w id i rp))) = dr_log (pw_driver w) ++ es).
      { unfold do_record. destruct (mfind id (pw_passes w)) as [p|]; [|exists []; rewrite app_nil_r; reflexivity].
        destruct (record_ext i rp (pw_driver w) p) as [es Es]. destruct (pass_record i rp (pw_driver w) p) as [[d p'] b]. exists es. exact Es. }
      destruct Y as [es Es]. destruct (do_record w id i rp) as [w1 b]. destruct (IH w1) as [es2 Es2]. destruct (do_records w1 l) as [w2 b2]. cbn [fst] in *.
      exists (es ++ es2). rewrite Es2, Es, app_assoc. reflexivity. }
    destruct (X l2 w) as [es Es]. rewrite Es, made_as_app, Hx. reflexivity.
Qed.
Print Assumptions C91_in_runs.
Example C91_runs_example : sane new_pworld (ex_two ++ [ORun 1 ([(1, 0%nat, None)] ++ (2, 0%nat, Some 52) :: [])]) /\
  binds (ex_two ++ [OWait 1; ORecord 1 0 None]) 2 0 (Some 52) = Some (17, 9, 12).
Proof. split; [unfold ex_two, ex_pre, ex_quad; cbn [app]; sane_tac|vm_compute; reflexivity]. Qed.
