(* The writes of the descriptor sets match their layouts. *)
From Verif Require Export Proof_Pipe6.
From Coq Require Import Lia ZifyBool ZifyNat ZifyN Permutation PeanoNat.
Local Open Scope N_scope.

Lemma declared_one_use a : declared_image a -> isImage a = true /\ (isSampledView a = true -> isStorageView a = false).
Proof.
  intros (m & pass & views & binding & wanted & flag & misc & ->). split.
  - destruct m; try reflexivity. unfold isImage, hasFlag. cbn [declare_image mk_image_attach at_flags]. apply N.eqb_eq. apply N.bits_inj. intro n.
    rewrite !N.land_spec, !N.lor_spec. change (N.testbit AF_Image n) with (N.testbit 4 n). destruct (N.testbit 4 n); rewrite ?orb_true_r, ?andb_false_r; reflexivity.
  - unfold isSampledView, isStorageView. destruct m; cbn; intro H; try discriminate H; try reflexivity; try (rewrite andb_false_r in H; discriminate); rewrite ?andb_false_r; reflexivity.
Qed.
Lemma image_same a i : declared_image a ->
  same_bindings (image_write a i) (map binding_of (filter (fun a => orb (isSampledView a) (isStorageView a)) [a])).
Proof.
  intro D. destruct (declared_one_use a D) as [Hi Hu]. unfold same_bindings, image_write. cbn [filter]. destruct (isSampledView a) eqn:E1; cbn [orb].
  - specialize (Hu eq_refl). cbn. unfold a_getDescriptorType. rewrite Hi. unfold isStorageView in Hu. rewrite Hi in Hu. cbn in Hu. rewrite Hu. reflexivity.
  - destruct (isStorageView a) eqn:E2; [|reflexivity]. cbn. unfold a_getDescriptorType. rewrite Hi. unfold isStorageView in E2. rewrite Hi in E2. cbn in E2. rewrite E2. reflexivity.
Qed.
Lemma buffer_same a i : same_bindings (buffer_write a i) (map binding_of (filter (fun a => orb (orb (isUniformBuffer a) (isStorageBuffer a)) (orb (isUniformView a) (isStorageBView a))) [a])).
Proof.
  unfold same_bindings, buffer_write, isUniformView, isStorageBView, isUniformBuffer, isStorageBuffer. cbn [filter].
  destruct (isBuffer a), (hasFlag (ba_flags a) BF_Uniform), (hasFlag (ba_flags a) BF_Storage), (hasFlag (ba_flags a) BF_View); reflexivity.
Qed.
Lemma same_app w1 w2 b1 b2 : same_bindings w1 b1 -> same_bindings w2 b2 -> same_bindings (w1 ++ w2) (b1 ++ b2).
Proof. unfold same_bindings. rewrite !map_app. intros -> ->. reflexivity. Qed.
Lemma same_flat (W : attach -> list dwrite) f l : (forall a, In a l -> same_bindings (W a) (map binding_of (filter f [a]))) ->
  same_bindings (flat_map W l) (map binding_of (filter f l)).
Proof.
  induction l as [|a l IH]; intro H; [reflexivity|]. cbn [flat_map]. change (a :: l) with ([a] ++ l). rewrite filter_app, map_app.
  apply same_app; [apply H; left; reflexivity|]. apply IH. intros x X. apply H. right. exact X.
Qed.
Lemma writes_same images buffers i : Forall declared_image images -> same_bindings (set_writes images buffers i) (fill_bindings images buffers).
Proof.
  intro H. unfold set_writes, fill_bindings. apply same_app; apply same_flat.
  - intros a X. apply image_same. rewrite Forall_forall in H. apply H, X.
  - intros a X. apply buffer_same.
Qed.

Definition GU (d : driver) : Prop :=
  (forall p s x, In (PAllocated p s x) (dr_log d) -> x < dr_next d) /\ (forall x w, In (PUpdated x w) (dr_log d) -> x < dr_next d) /\
  forall p s x w, In (PAllocated p s x) (dr_log d) -> In (PUpdated x w) (dr_log d) -> same_bindings w (layout_of (dr_log d) s).
Definition still_events (e : pevent) : bool := match e with PAllocated _ _ _ | PUpdated _ _ => false | _ => true end.
Lemma GU_more d n es q : GP d -> GU d -> forallb still_events es = true -> dr_next d <= n -> GU (mk n (dr_log d ++ es) q).
Proof.
  intros (G & _) (U1 & U2 & U3) H Hn. rewrite forallb_forall in H. unfold GU. cbn [dr_log dr_next mk].
  assert (A : forall p s x, In (PAllocated p s x) (dr_log d ++ es) -> In (PAllocated p s x) (dr_log d)).
  { intros p s x X. apply in_app_or in X. destruct X as [X|X]; [exact X|]. specialize (H _ X). discriminate. }
  assert (B : forall x w, In (PUpdated x w) (dr_log d ++ es) -> In (PUpdated x w) (dr_log d)).
  { intros x w X. apply in_app_or in X. destruct X as [X|X]; [exact X|]. specialize (H _ X). discriminate. }
  split; [intros p s x X; specialize (U1 p s x (A _ _ _ X)); lia|]. split; [intros x w X; specialize (U2 x w (B _ _ X)); lia|].
  intros p s x w X Y. apply A in X. apply B in Y. rewrite layout_app by apply (G _ _ _ X). apply (U3 p s x w X Y).
Qed.

Section One.
Context (d0 : driver) (pool0 : N) (a c : list attach) (m : nat) (r1 r2 : N -> nat).
Context (Hfit : N.of_nat (length a + length c) * N.of_nat m < 4294967296) (Hm : N.of_nat m < 4294967296).
Notation full := (full_part d0 pool0 a c m r1 r2).
Definition with_GU (x : driver * ppass) : Prop := full x /\ GU (fst x).
Lemma with_GU_closed : closed True with_GU.
Proof.
  pose proof (full_closed d0 pool0 a c m r1 r2 Hfit Hm) as C.
  assert (G : forall x, full x -> GP (fst x)) by (intros x (_ & _ & X & _); exact X).
  constructor.
  - intros nf i x [F U]. split; [apply (cl_create _ _ C nf i x F)|]. destruct x as [d p]. apply (GU_more d); [apply G in F; exact F|exact U|reflexivity|cbn; lia].
  - intros i x [F U]. split; [apply (cl_reset _ _ C i x F)|]. destruct x as [d p]. unfold on_holder, ho_reset. cbn [fst snd] in *. destruct (N.eqb _ 0); [exact U|].
    pose proof (GU_more d (dr_next d) [] (dr_queue d ++ [ho_pipeline (pp_holder p) i]) (G _ F) U eq_refl ltac:(lia)) as X. rewrite app_nil_r in X. exact X.
  - intros x [F U]. split; [apply (cl_initialise _ _ C x F)|]. destruct x as [d p]. unfold on_holder, ho_initialise. cbn [fst snd] in *. destruct (N.eqb _ 0); [|exact U].
    unfold fresh. cbn [dr_next dr_log dr_queue fst]. rewrite <- !app_assoc. apply (GU_more d); [apply G in F; exact F|exact U|reflexivity|cbn; lia].
  - intros _ x [F U]. split; [apply (cl_cleanup _ _ C I x F)|]. destruct x as [d p]. cbn [fst snd on_holder ho_cleanup] in *. apply (GU_more d); [apply G in F; exact F|exact U| |cbn; lia].
    assert (X : forall k l, forallb still_events (flat_map (destroy_event k) l) = true).
    { intros k l. induction l as [|y l IH]; [reflexivity|]. cbn [flat_map]. rewrite forallb_app, IH. unfold destroy_event. destruct (N.eqb y 0); reflexivity. }
    rewrite !(destroy_one KPool), !(destroy_one KLayout), !(destroy_one KSetLayout), !forallb_app, !X. reflexivity.
  - intros d p rp H. exact H.
  - intros d p i H. exact H.
  - intros d p i pc [F U]. split; [apply (cl_code _ _ C d p i pc F)|exact U].
Qed.
Lemma with_GU_set i x : Forall declared_image a -> with_GU x -> ho_pool (pp_holder (snd x)) <> 0 -> (i < m)%nat -> with_GU (on_holder (ho_set a c i) x).
Proof.
  intros Hd [F U] Hp Hi. split; [apply own_set; assumption|]. destruct x as [d p]. destruct F as (_ & _ & G1 & G2 & _). cbn [fst snd] in *.
  destruct (G2 Hp) as (T1 & T2 & T3 & _). unfold on_holder, ho_set. destruct (N.eqb _ 0); [|exact U]. unfold fresh. cbn [fst].
  set (n := dr_next d) in *. set (es := [PAllocated (ho_pool (pp_holder p)) (ho_setLayout (pp_holder p)) n; PUpdated n (set_writes a c i)]).
  destruct U as (U1 & U2 & U3). destruct G1 as (G & _). unfold GU. cbn [dr_log dr_next]. split; [|split].
  - intros q s x X. apply in_app_or in X. destruct X as [X|X]; [specialize (U1 _ _ _ X); lia|]. cbn in X. destruct X as [X|[X|[]]]; try discriminate. injection X as _ _ <-. unfold n. lia.
  - intros x w X. apply in_app_or in X. destruct X as [X|X]; [specialize (U2 _ _ X); lia|]. cbn in X. destruct X as [X|[X|[]]]; try discriminate. injection X as <- _. unfold n. lia.
  - intros q s x w X Y. apply in_app_or in X. apply in_app_or in Y. destruct X as [X|X], Y as [Y|Y].
    + rewrite layout_app by apply (G _ _ _ X). apply (U3 _ _ _ _ X Y).
    + cbn in Y. destruct Y as [Y|[Y|[]]]; try discriminate. injection Y as <- _. specialize (U1 _ _ _ X). unfold n in U1. lia.
    + cbn in X. destruct X as [X|[X|[]]]; try discriminate. injection X as _ _ <-. specialize (U2 _ _ Y). unfold n in U2. lia.
    + cbn in X, Y. destruct X as [X|[X|[]]]; try discriminate. destruct Y as [Y|[Y|[]]]; try discriminate. injection X as _ <- _. injection Y as <-.
      rewrite layout_app by exact T2. rewrite T3. subst w. apply writes_same, Hd.
Qed.
End One.

Definition WU (w : pworld) : Prop := WP w /\ GU (pw_driver w) /\ forall id p, mfind id (pw_passes w) = Some p -> Forall declared_image (pp_images p).
Lemma WU_record w id i rp : WU w -> record_sane w id i rp -> WU (fst (do_record w id i rp)).
Proof.
  intros (W & U & D) S. pose proof (WP_record w id i rp W S) as W'. destruct S as (S1 & S2 & S3). unfold do_record in *.
  destruct (mfind id (pw_passes w)) as [p|] eqn:E; [|split; [exact W|split; assumption]]. rewrite record_pre in *.
  pose proof (WP_full w id p W E) as F. pose proof (proj2 (proj2 (proj2 W)) id p E) as (P1 & (P2 & P2') & P3 & P4).
  pose proof (hl_pre i rp (pw_driver w) p P3 (S2 p eq_refl)) as HL.
  pose proof (cl_pre _ _ LP_closed i rp (pw_driver w) p (fun _ _ => I) (proj2 P3)) as HLP.
  pose proof (cl_pre _ _ (with_GU_closed _ _ _ _ _ _ _ P2 P2') i rp (pw_driver w) p (fun _ _ => I) (conj F U)) as F1.
  pose proof (with_GU_set _ _ _ _ _ _ _ P2 P2' i _ (D id p E) F1 (HLP HL) (S1 p E)) as [F2 U2].
  destruct (on_holder (ho_set (pp_images p) (pp_buffers p) i) (pre_record i rp (pw_driver w) p)) as [d' p']. cbn [fst snd] in *.
  split; [exact W'|]. split; [exact U2|]. cbn [pw_passes]. intros id' q. rewrite mfind_mput. destruct (N.eqb id' id); [|apply D].
  intro X. injection X as <-. destruct F2 as ((I1 & _) & _). cbn [snd] in I1. rewrite I1. apply (D id p E).
Qed.
Lemma WU_records l : forall w, WU w -> records_sane w l -> WU (fst (do_records w l)).
Proof.
  induction l as [|[[id i] rp] l IH]; intros w H Hs; [exact H|]. cbn [do_records]. destruct Hs as [S1 S2].
  pose proof (WU_record w id i rp H S1) as H1. destruct (do_record w id i rp) as [w1 b1]. cbn [fst] in *. specialize (IH w1 H1 S2).
  destruct (do_records w1 l) as [w2 b2]. exact IH.
Qed.
Lemma WU_step w o : WU w -> op_sane w o -> op_counts_fit o -> op_declared o -> WU (pstep w o).
Proof.
  intros (W & U & D) S C Dc. pose proof (WP_step w o W S C) as W'. pose proof W as (H1 & H2 & H3 & H4).
  destruct o as [id g kd n m a c cr|id i rp|id i pc|id|g l|g]; cbn [pstep] in *.
  - destruct (mfind id (pw_passes w)) as [p|] eqn:E; [split; [exact W|split; assumption]|]. split; [exact W'|]. split; [exact U|]. cbn [pw_passes]. intros id' q. rewrite mfind_mput.
    destruct (N.eqb id' id); [intro X; injection X as <-; exact Dc|apply D].
  - apply WU_record; [split; [exact W|split; assumption]|exact S].
  - destruct (mfind id (pw_passes w)) as [p|] eqn:E; [|split; [exact W|split; assumption]].
    pose proof (WP_full w id p W E) as F. destruct (H4 id p E) as (P1 & (P2 & P2') & P3 & P4).
    pose proof (cl_passreset _ _ (with_GU_closed _ _ _ _ _ _ _ P2 P2') i pc (pw_driver w) p (conj F U)) as [F1 U1].
    destruct (pass_reset i pc (pw_driver w) p) as [d' p']. cbn [fst snd] in *.
    split; [exact W'|]. split; [exact U1|]. cbn [pw_passes]. intros id' q. rewrite mfind_mput. destruct (N.eqb id' id); [|apply D].
    intro X. injection X as <-. destruct F1 as ((I1 & _) & _). cbn [snd] in I1. rewrite I1. apply (D id p E).
  - destruct (mfind id (pw_passes w)) as [p|] eqn:E; [|split; [exact W|split; assumption]]. split; [exact W'|]. split.
    + cbn [pw_driver ho_cleanup fst]. apply (GU_more (pw_driver w)); [exact H3|exact U| |lia].
      assert (X : forall k l, forallb still_events (flat_map (destroy_event k) l) = true).
      { intros k l. induction l as [|y l IH]; [reflexivity|]. cbn [flat_map]. rewrite forallb_app, IH. unfold destroy_event. destruct (N.eqb y 0); reflexivity. }
      rewrite !(destroy_one KPool), !(destroy_one KLayout), !(destroy_one KSetLayout), !forallb_app, !X. reflexivity.
    + cbn [pw_passes]. intros id' q. rewrite merase_find. destruct (N.eqb id' id); [discriminate|apply D].
  - unfold do_run in *. cbn [op_sane] in S. set (w0 := on_driver _ w) in *.
    assert (U0 : WU w0).
    { split; [apply (WP_quiet w [PWaited g] (dr_next (pw_driver w)) (dr_queue (pw_driver w))); try reflexivity; [exact W|]; intros k r; apply inv_log; reflexivity|]. split; [|exact D].
      apply (GU_more (pw_driver w)); [exact H3|exact U|reflexivity|lia]. }
    pose proof (WU_records l w0 U0 S) as (W1 & U1 & D1). destruct (do_records w0 l) as [w1 bound]. cbn [fst] in *. split; [exact W'|]. split; [|exact D1].
    cbn [on_driver pw_driver]. unfold log, clear_queue. cbn [dr_log dr_next dr_queue]. rewrite <- app_assoc. apply (GU_more (pw_driver w1)); [apply W1|exact U1| |lia].
    rewrite forallb_app. cbn. rewrite andb_true_r. apply forallb_forall. intros e X. apply in_map_iff in X. destruct X as (y & <- & _). reflexivity.
  - split; [exact W'|]. split; [|exact D]. apply (GU_more (pw_driver w)); [exact H3|exact U|reflexivity|lia].
Qed.
Lemma WU_run ops : forall w, WU w -> sane w ops -> Forall op_counts_fit ops -> Forall op_declared ops -> WU (prun w ops).
Proof.
  induction ops as [|o r IH]; intros w H Hs Hf Hd; [exact H|]. change (prun w (o :: r)) with (prun (pstep w o) r). destruct Hs as [S1 S2]. inversion Hf; subst. inversion Hd; subst.
  apply IH; [apply WU_step; assumption|exact S2|assumption|assumption].
Qed.
Lemma WU_new : WU new_pworld.
Proof. split; [apply WP_new|]. split; [|discriminate]. split; [intros ? ? ? []|]. split; [intros ? ? []|intros ? ? ? ? []]. Qed.
