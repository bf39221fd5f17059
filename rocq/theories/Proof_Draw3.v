(* Quad and mesh passes: histories, and their pipelines as histories of Model_Pipe.v. *)
From Verif Require Import Proof_Device3 Proof_Pipe11 Proof_Target Proof_Target2 Proof_Target3 Spec_Draw Proof_Draw Proof_Draw2.
From Coq Require Import Lia PeanoNat ZArith List.
Import ListNotations.
Local Open Scope N_scope.

Definition world_of (x : drawer) : pworld := {| pw_driver := dw_driver x; pw_passes := [(0, dw_pass x)] |}.
Lemma world_step x o : pstep (world_of x) (pipe_op x o) = world_of (dw_step x o).
Proof.
  destruct o as [u w ending|i c]; cbn [pipe_op dw_step pstep].
  - destruct (record_parts u w ending x) as (E1 & E2 & _). unfold do_record, world_of. cbn [pw_passes mfind N.eqb pw_driver]. rewrite E1, E2.
    destruct (pass_record _ _ _ _) as [[d p] h]. reflexivity.
  - unfold world_of, draw_reset. cbn [pw_passes mfind N.eqb pw_driver]. destruct (pass_reset i c (dw_driver x) (dw_pass x)) as [d p]. reflexivity.
Qed.
Lemma world_run ops : forall x, prun (world_of x) (pipe_ops x ops) = world_of (draws_all x ops).
Proof. induction ops as [|o ops IH]; intro x; [reflexivity|]. cbn [pipe_ops prun fold_left]. rewrite world_step. apply IH. Qed.
Lemma pipe_ops_app l1 l2 : forall x, pipe_ops x (l1 ++ l2) = pipe_ops x l1 ++ pipe_ops (draws_all x l1) l2.
Proof. induction l1 as [|o l1 IH]; intro x; [reflexivity|]. cbn [app pipe_ops]. rewrite IH. reflexivity. Qed.

Section Runs.
Variables (k : pass_kind) (programs count : nat) (images buffers : list attach) (creator : option (nat -> N)) (size : N * N) (position : Z * Z) (cull : N).
Hypothesis kd : k = Quad \/ k = Mesh.
Notation DI' := (DI k programs count images buffers creator size position cull).
Definition start : drawer := new_drawer k programs count images buffers creator size position cull.
Definition born : pop := ONew 0 0 k programs count images buffers creator.
Lemma world_born : prun new_pworld [born] = world_of start. Proof. reflexivity. Qed.

Lemma step_DI o x : DI' x -> op_of_pass images count o -> (count = 1%nat \/ (k = Quad /\ programs <> 1%nat /\ forall i c, o <> DwReset i c)) ->
  DI' (dw_step x o) /\ op_sane (world_of x) (pipe_op x o).
Proof.
  intros D Ho Sep. destruct o as [u w ending|i c].
  - destruct (record_DI k programs count images buffers creator size position cull kd u w ending x D Ho) as (A & _ & _ & _ & B & C & _); [tauto|]. split; [exact A|].
    cbn [pipe_op op_sane record_sane world_of pw_passes]. unfold record_sane, pass_index_ok. cbn [world_of pw_passes mfind N.eqb].
    split; [|split].
    + intros p [= <-]. rewrite (di_sets _ _ _ _ _ _ _ _ _ _ D). apply Ho.
    + intros p [= <-] _. exact B.
    + exact C.
  - destruct Sep as [Sep|(_ & _ & Sep)]; [|exfalso; apply (Sep i c); reflexivity]. split; [apply reset_DI; assumption|].
    cbn [pipe_op op_sane]. unfold pass_index_ok. cbn [world_of pw_passes mfind N.eqb]. intros p [= <-]. rewrite (di_sets _ _ _ _ _ _ _ _ _ _ D). exact Ho.
Qed.
Lemma run_DI ops : forall x, DI' x -> Forall (op_of_pass images count) ops -> separate_pipelines k programs count ops ->
  DI' (draws_all x ops) /\ sane (world_of x) (pipe_ops x ops).
Proof.
  induction ops as [|o ops IH]; intros x D F Sep; [split; [exact D|exact I]|]. inversion F; subst.
  assert (S1 : count = 1%nat \/ (k = Quad /\ programs <> 1%nat /\ forall i c, o <> DwReset i c)).
  { destruct Sep as [Sep|(A & B & C)]; [auto|]. right. split; [exact A|]. split; [exact B|]. intros i c ->. apply (C i c). left. reflexivity. }
  assert (S2 : separate_pipelines k programs count ops).
  { destruct Sep as [Sep|(A & B & C)]; [left; exact Sep|]. right. split; [exact A|]. split; [exact B|]. intros i c X. apply (C i c). right. exact X. }
  destruct (step_DI o x D H1 S1) as [D1 O1]. destruct (IH (dw_step x o) D1 H2 S2) as [D2 O2]. split; [exact D2|]. cbn [pipe_ops sane]. split; [exact O1|]. rewrite world_step. exact O2.
Qed.
End Runs.

(* one draw *)
Lemma draw_one w i h b rest : drawn_with h b (draw_cmds w i ++ rest) = (h, b) :: drawn_with h b rest.
Proof.
  destruct w as [v ind o s n|m]; cbn [draw_cmds]; unfold quad_draw, mesh_draw.
  - destruct (N.eqb v 0); destruct (N.eqb _ 0); reflexivity.
  - destruct (N.eqb (buffer_at (mc_vertex m) i) 0); destruct (N.eqb (buffer_at (mc_indirect m) i) 0); destruct (N.eqb (buffer_at (mc_index m) i) 0); reflexivity.
Qed.
Lemma areas size images : fst size <= fst (render_area size images) /\ snd size <= snd (render_area size images) /\
  (Forall (fits_in size) (filter isTarget images) -> render_area size images = size).
Proof.
  unfold render_area. assert (A : forall l s, fst s <= fst (fold_left (fun wh a => if isTarget a then let ext := level_extent (attach_view a 0) in (N.max (fst wh) (fst ext), N.max (snd wh) (snd ext)) else wh) l s) /\
     snd s <= snd (fold_left (fun wh a => if isTarget a then let ext := level_extent (attach_view a 0) in (N.max (fst wh) (fst ext), N.max (snd wh) (snd ext)) else wh) l s)).
  { induction l as [|a l IH]; intro s; cbn [fold_left]; [lia|]. destruct (isTarget a); [|apply IH]. cbn zeta. destruct (IH (N.max (fst s) (fst (level_extent (attach_view a 0))), N.max (snd s) (snd (level_extent (attach_view a 0))))) as [B C]. cbn [fst snd] in B, C. lia. }
  split; [apply A|]. split; [apply A|]. induction images as [|a l IH]; [reflexivity|]. cbn [filter fold_left]. destruct (isTarget a); [|exact IH].
  intro F. inversion F as [|? ? [F1 F2] F3]; subst. cbn zeta in F1, F2 |- *. rewrite !N.max_l by assumption. rewrite <- surjective_pairing. apply IH. exact F3.
Qed.
Lemma made_with_in l r info : In (TRenderPass r info) l -> exists info', made_with l r = Some info' /\ In (TRenderPass r info') l.
Proof.
  induction l as [|x l IH]; [intros []|]. intros [ -> |H].
  - exists info. cbn [made_with]. rewrite N.eqb_refl. split; [reflexivity|left; reflexivity].
  - destruct (IH H) as (i' & A & B). destruct x as [h i0| | | | |]; cbn [made_with]; try (exists i'; split; [exact A|right; exact B]).
    destruct (N.eqb_spec r h) as [E|E]; [exists i0; subst; split; [reflexivity|left; reflexivity]|exists i'; split; [exact A|right; exact B]].
Qed.

Section Last.
Variables (k : pass_kind) (programs count : nat) (images buffers : list attach) (creator : option (nat -> N)) (size : N * N) (position : Z * Z) (cull : N).
Variables (ops : list dop) (u : use) (w : drawing) (ending : rctx -> nat -> rctx * list cmd).
Hypothesis kd : k = Quad \/ k = Mesh.
Hypothesis pc : (programs = 1 \/ count <= programs)%nat.
Hypothesis p1 : (1 <= programs)%nat.
Hypothesis cr : creator_ok programs count creator.
Hypothesis sp : separate_pipelines k programs count ops.
Hypothesis op : Forall (op_of_pass images count) (ops ++ [DwRecord u w ending]).
Let x := draws_all (start k programs count images buffers creator size position cull) ops.
Let x' := dw_step x (DwRecord u w ending).
Let i := rp_index (us_pass u).
Lemma last_draw : exists r area,
  begun_last (tg_log (dw_target x')) r area /\ handles_alive (tg_log (dw_target x')) /\ area = render_area size images /\
  (exists info, made_with (tg_log (dw_target x')) r = Some info /\ length (ri_colours info) = length (colours images)) /\
  (exists c, binds (born k programs count images buffers creator :: pipe_ops (start k programs count images buffers creator size position cull) ops) 0 i (remade x u) = Some c /\
     sane new_pworld ((born k programs count images buffers creator :: pipe_ops (start k programs count images buffers creator size position cull) ops) ++ [ORecord 0 i (remade x u)]) /\
     calls ((born k programs count images buffers creator :: pipe_ops (start k programs count images buffers creator size position cull) ops) ++ [ORecord 0 i (remade x u)]) = dr_log (dw_driver x') /\
     (draws_nothing (us_body u) -> draws_nothing ending -> drawn_with 0 false (snd (snd (draw_record u w ending x))) = [(fst (fst c), true)]) /\
     exists program, made_as (dr_log (dw_driver x')) (fst (fst c)) = Some (program, r, snd (fst c)) /\ 
       exists s, states_of (dw_made x') (fst (fst c)) = Some s /\ right k images size position cull s /\ fixed k cull s).
Proof.
  apply Forall_app in op. destruct op as [F1 F2]. apply Forall_inv in F2.
  assert (D0 : DI k programs count images buffers creator size position cull (start k programs count images buffers creator size position cull)) by (apply new_DI; assumption).
  destruct (run_DI k programs count images buffers creator size position cull kd ops _ D0 F1 sp) as [D1 S1]. fold x in D1.
  assert (Sp : (count = 1 \/ k = Quad /\ programs <> 1)%nat) by (destruct sp as [Y|(Y1 & Y2 & _)]; auto).
  destruct (record_DI k programs count images buffers creator size position cull kd u w ending x D1 F2 Sp) as (D2 & NZ & Co & Be & P0 & P1 & Hp).
  change (fst (draw_record u w ending x)) with x' in *. fold i in NZ, Be, Hp.
  destruct D2 as [Li Ke Le _ Pa Ki Se Pr Po Kk Al Fi Rp St Sl Si]. cbn [op_of_pass] in F2. destruct F2 as [F2 F3]. fold i in F3.
  destruct (Sl i F3 NZ) as (_ & Hz & program & l & Hm).
  exists (rd_renderPass (pass_data (dw_target x') i)), (rd_area (pass_data (dw_target x') i)). split; [exact Be|]. split; [apply Li|].
  assert (F3' : (i < length (tg_passes (dw_target x')))%nat) by (rewrite Le; exact F3).
  destruct (ke_data _ _ _ Ke i F3') as [Z|(info & K1 & _ & _ & _ & _ & _ & _ & K2)]; [contradiction|]. split; [exact K2|].
  split. { destruct (made_with_in _ _ _ K1) as (info' & M1 & M2). exists info'. split; [exact M1|]. exact (Co _ _ M2). }
  set (hist := born k programs count images buffers creator :: pipe_ops (start k programs count images buffers creator size position cull) ops).
  assert (W : prun new_pworld hist = world_of x). { unfold hist. change (prun new_pworld (?a :: ?b)) with (prun (prun new_pworld [a]) b). rewrite world_born with (size := size) (position := position) (cull := cull). apply world_run. }
  assert (W' : prun new_pworld (hist ++ [ORecord 0 i (remade x u)]) = world_of x'). { rewrite prun_app, W. apply (world_step x (DwRecord u w ending)). }
  assert (S : sane new_pworld (hist ++ [ORecord 0 i (remade x u)])).
  { apply sane_app. rewrite W. split.
    - split; [split; [exact pc|lia]|exact S1].
    - split; [|exact I]. apply (step_DI k programs count images buffers creator size position cull kd (DwRecord u w ending) x D1); [split; assumption|].
      destruct Sp as [Y|[Y1 Y2]]; [auto|right; repeat split; auto; intros; discriminate]. }
  assert (Bi : binds hist 0 i (remade x u) = Some (ho_recordInto i (pp_holder (dw_pass x')))) by (unfold binds; rewrite W'; reflexivity).
  exists (ho_recordInto i (pp_holder (dw_pass x'))). split; [exact Bi|]. split; [exact S|]. split; [unfold calls; rewrite W'; reflexivity|]. cbn [ho_recordInto fst snd].
  split.
  - intros N1 N2. destruct (record_parts u w ending x) as (_ & _ & _ & _ & _ & body & _ & c0 & c & E). fold i in E. rewrite Hp in E. rewrite E. unfold ">>>".
    destruct (ending c i) as [c2 l2] eqn:E2. cbn [snd]. cbn [app drawn_with]. unfold bind_cmds. cbn [app drawn_with]. rewrite <- !app_assoc. rewrite N1, draw_one. cbn [app drawn_with].
    pose proof (N2 c i 0 false []) as N3. rewrite E2 in N3. cbn [snd] in N3. rewrite app_nil_r in N3.
    pose proof (N2 c i (ho_pipeline (pp_holder (dw_pass x')) i) false []) as N4. rewrite E2 in N4. cbn [snd] in N4. rewrite app_nil_r in N4. rewrite N4. reflexivity.
  - destruct (last_record hist 0 i (remade x u) (ho_pipeline (pp_holder (dw_pass x')) i) (ho_layout (pp_holder (dw_pass x'))) (nth i (ho_sets (pp_holder (dw_pass x'))) 0) S) as (p & r & _ & _ & _ & _ & _ & X6 & _).
    + constructor; [exact cr|]. clear. generalize (start k programs count images buffers creator size position cull). induction ops as [|o l IH]; intro y; cbn [pipe_ops]; constructor; [destruct o; exact I|apply IH].
    + exact Bi.
    + unfold calls in X6. rewrite W' in X6. cbn [world_of pw_driver] in X6. exists program. split; [congruence|].
      destruct (Kk _ _ Hm) as [s Es]. exists s. split; [exact Es|]. exact (Al _ _ Es).
Qed.
End Last.
