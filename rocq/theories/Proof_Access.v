(* Proofs about the stages and accesses of barriers: what is tracked is coherent. *)
From Verif Require Import Spec_Access Proof_Layout Props_Attach.
Local Open Scope N_scope.

Lemma allows_0 st : stage_allows st 0.
Proof. intros k H. rewrite N.bits_0 in H. discriminate H. Qed.
Lemma allows_lor st a b : stage_allows st a -> stage_allows st b -> stage_allows st (N.lor a b).
Proof. intros A B k H. rewrite N.lor_spec in H. apply orb_true_iff in H. destruct H as [H|H]; [apply A, H|apply B, H]. Qed.
Lemma allows_row st s a x : In (s, a) stage_bits -> N.land st s = s -> N.land x a = x -> stage_allows st x.
Proof.
  intros I L E k H. right. exists s, a. split; [exact I|]. split; [exact L|]. rewrite <- E in H. rewrite N.land_spec in H. apply andb_true_iff in H. apply H.
Qed.
Lemma allows_memory st : stage_allows st A_MEMORY_READ. Proof. intros k H. left. exact H. Qed.
(* closed cases: one row of the table *)
Ltac row := first [apply allows_0 | apply allows_memory
  | match goal with |- stage_allows ?st ?x =>
      first [ apply (allows_row st S_FRAGMENT (N.lor A_UNIFORM_READ (N.lor A_INPUT_ATTACHMENT_READ (N.lor A_SHADER_READ A_SHADER_WRITE)))); [cbn; tauto|reflexivity|reflexivity]
            | apply (allows_row st S_COMPUTE (N.lor A_UNIFORM_READ (N.lor A_SHADER_READ A_SHADER_WRITE))); [cbn; tauto|reflexivity|reflexivity]
            | apply (allows_row st S_LATE_TESTS (N.lor A_DS_READ A_DS_WRITE)); [cbn; tauto|reflexivity|reflexivity]
            | apply (allows_row st S_COLOR_OUTPUT (N.lor A_COLOR_READ A_COLOR_WRITE)); [cbn; tauto|reflexivity|reflexivity]
            | apply (allows_row st S_TRANSFER (N.lor A_TRANSFER_READ A_TRANSFER_WRITE)); [cbn; tauto|reflexivity|reflexivity]
            | apply (allows_row st S_SHADING_RATE A_SHADING_RATE_READ); [cbn; tauto|reflexivity|reflexivity] ] end].

Lemma coherent_make l : handled l -> coherent (makeLayoutState l).
Proof.
  intro H. cbn in H. repeat (destruct H as [<-|H]; [unfold coherent; cbn -[stage_allows scope_ok]; try (split; [reflexivity|discriminate]);
    first [split; [tauto|reflexivity] | split; [reflexivity|split; [discriminate|row]]]|]). destruct H.
Qed.

(* the scope of a coherent state *)
Lemma coherent_scope s : coherent s -> scope_ok (ps_stage (ls_state s)) (ps_access (ls_state s)) \/ (ls_layout s = L_GENERAL /\ ps_stage (ls_state s) = S_BOTTOM).
Proof.
  unfold coherent. cbv zeta. destruct (N.eqb_spec (ls_layout s) L_UNDEFINED) as [E|E]; [intros [-> H]; left; split; [exact H|apply allows_0]|].
  destruct (N.eqb_spec (ls_layout s) L_GENERAL) as [G|G]; [|intros [_ H]; left; exact H].
  intros [[B|[B|B]] A]; [right; auto| |]; left; rewrite B; (split; [discriminate|]).
  - apply (allows_row _ S_COMPUTE (N.lor A_UNIFORM_READ (N.lor A_SHADER_READ A_SHADER_WRITE))); [cbn; tauto|reflexivity|].
    rewrite <- A at 2. rewrite <- A at 1. rewrite <- N.land_assoc. reflexivity.
  - apply (allows_row _ S_FRAGMENT (N.lor A_UNIFORM_READ (N.lor A_INPUT_ATTACHMENT_READ (N.lor A_SHADER_READ A_SHADER_WRITE)))); [cbn; tauto|reflexivity|].
    rewrite <- A at 2. rewrite <- A at 1. rewrite <- N.land_assoc. reflexivity.
Qed.
Lemma lor_land a b m : N.land a m = a -> N.land b m = b -> N.land (N.lor a b) m = N.lor a b.
Proof. intros A B. rewrite N.land_lor_distr_l, A, B. reflexivity. Qed.
Lemma coherent_merge o s : coherent o -> coherent s -> ls_layout o = ls_layout s ->
  coherent (mk_lstate (ls_layout o) (N.lor (ps_access (ls_state o)) (ps_access (ls_state s))) (ps_stage (ls_state o))).
Proof.
  intros O S E. unfold coherent in *. cbn [mk_lstate ls_layout ls_state ps_access ps_stage]. cbv zeta in *. rewrite <- E in S.
  destruct (N.eqb (ls_layout o) L_UNDEFINED); [destruct O as [-> O], S as [-> S]; split; [reflexivity|exact O]|].
  destruct (N.eqb (ls_layout o) L_GENERAL); [destruct O as [O1 O2], S as [S1 S2]; split; [exact O1|apply lor_land; assumption]|].
  destruct O as [O1 [O2 O3]], S as [S1 [S2 S3]]. split; [exact O1|]. split; [exact O2|]. apply allows_lor; [exact O3|]. rewrite O1. rewrite S1 in S3. exact S3.
Qed.

(* reading *)
Definition collected (states : nmap lstate) : Prop := forall k s, mfind k states = Some s -> coherent s /\ ls_layout s = k.
Lemma collected_collect states s : collected states -> coherent s -> collected (collect states s).
Proof.
  intros C S k t. unfold collect. destruct (mfind (ls_layout s) states) as [o|] eqn:E.
  - rewrite mfind_mput. destruct (N.eqb_spec k (ls_layout s)) as [K|K]; [|apply C].
    intro H. injection H as <-. destruct (C _ _ E) as [Co Lo]. split; [apply coherent_merge; assumption|]. cbn. rewrite Lo, K. reflexivity.
  - rewrite mfind_mput. destruct (N.eqb_spec k (ls_layout s)) as [K|K]; [|apply C]. intro H. injection H as <-. auto.
Qed.
Definition coherent_mips (l : mip_states) : Prop := forall mip s, mfind mip l = Some s -> coherent s.
Definition coherent_layers (m : layer_states) : Prop := forall layer l, mfind layer m = Some l -> coherent_mips l.
Lemma handler_layers h : coherent_handler h <-> forall q m, mfind q h = Some m -> coherent_layers m.
Proof. unfold coherent_handler, coherent_layers, coherent_mips. split; intros H; intros; eapply H; eauto. Qed.
Lemma undefined_coherent : coherent (makeLayoutState L_UNDEFINED). Proof. apply coherent_make. left. reflexivity. Qed.
Lemma range_coherent m r : coherent_layers m -> coherent (getSubresourceRangeLayout m r).
Proof.
  intro H. unfold getSubresourceRangeLayout. cbv zeta.
  assert (G : forall ls acc, collected acc -> collected (fold_left (fun acc layer => match mfind layer m with None => acc | Some layers =>
      fold_left (fun acc mip => match mfind mip layers with None => acc | Some s => collect acc s end) (wrapped_from (r_mip r) (r_levels r)) acc end) ls acc)).
  { induction ls as [|x ls IH]; intros acc A; [exact A|]. cbn [fold_left]. apply IH. destruct (mfind x m) as [l|] eqn:E; [|exact A].
    specialize (H _ _ E). revert acc A. generalize (wrapped_from (r_mip r) (r_levels r)) as mips. induction mips as [|y mips IH2]; intros acc A; [exact A|]. cbn [fold_left]. apply IH2.
    destruct (mfind y l) as [s|] eqn:E2; [|exact A]. apply collected_collect; [exact A|apply (H _ _ E2)]. }
  specialize (G (wrapped_from (r_layer r) (r_layers r)) [] (fun k s E => False_ind _ (eq_ind None (fun o => match o with None => True | _ => False end) I _ E))).
  match type of G with collected ?x => destruct x as [|[k s] rest] end; [apply undefined_coherent|]. apply (G k s). cbn [mfind]. rewrite N.eqb_refl. reflexivity.
Qed.
Lemma get_coherent h im vt r : coherent_handler h -> coherent (getLayoutState h im vt r).
Proof.
  intro H. unfold getLayoutState. destruct (mfind (i_id im) h) as [m|] eqn:E; [apply range_coherent; apply (proj1 (handler_layers h) H _ _ E)|].
  split; [reflexivity|discriminate].
Qed.

(* writing *)
Lemma mips_put s : forall mips ms, coherent s -> coherent_mips ms -> coherent_mips (fold_left (fun ms mip => mput mip s ms) mips ms).
Proof.
  induction mips as [|y mips IH2]; intros ms S M; [exact M|]. cbn [fold_left]. apply IH2; [exact S|]. intros mip t. rewrite mfind_mput. destruct (N.eqb_spec mip y) as [->|E]; [|apply M].
  intro X. injection X as <-. exact S.
Qed.
Lemma set_coherent h im vt r s : coherent_handler h -> coherent s -> coherent_handler (setLayoutState h im vt r s).
Proof.
  intros H S. apply handler_layers. intros q m. rewrite handler_layers in H. unfold setLayoutState. rewrite mfind_mput.
  destruct (N.eqb_spec q (i_id im)) as [->|E]; [|apply H]. intro X. injection X as <-.
  set (cur := match mfind (i_id im) h with Some m0 => m0 | None => [] end).
  assert (C : coherent_layers cur) by (subst cur; destruct (mfind (i_id im) h) as [m0|] eqn:E; [apply (H _ _ E)|intros a b Z; discriminate Z]).
  unfold addSubresourceRangeLayout. generalize (getVirtualRange im vt r) as v. intro v. revert C. generalize cur. clear -S. generalize (wrapped_from (r_layer v) (r_layers v)) as ls.
  induction ls as [|x ls IH]; intros cur C; [exact C|]. cbn [fold_left]. apply IH. intros layer l. rewrite mfind_mput. destruct (N.eqb_spec layer x) as [->|E]; [|apply C].
  intro X. injection X as <-.
  assert (C0 : coherent_mips match mfind x cur with Some m => m | None => [] end) by (destruct (mfind x cur) as [m0|] eqn:E; [apply (C _ _ E)|intros a b Z; discriminate Z]).
  apply mips_put; assumption.
Qed.
Lemma add_coherent h d : coherent_handler h -> coherent_handler d -> coherent_handler (addStates h d).
Proof.
  intros H D. apply handler_layers. rewrite handler_layers in H, D. intros q m. rewrite addStates_find. destruct (mfind q h) as [x|] eqn:E; [intro X; injection X as <-; apply (H _ _ E)|apply D].
Qed.
Lemma nil_coherent : coherent_handler []. Proof. intros q m layer l mip s E. discriminate E. Qed.

(* what the passes expose *)
Lemma declared_coherent a sep cmp : declared a -> coherent (mk_lstate (a_getImageLayout a sep) (a_getAccessMask a) (a_getPipelineStageFlags a cmp)).
Proof.
  intros (m & pass & views & binding & wanted & flag & misc & -> & Hw).
  destruct (img_usage m) eqn:U.
  2: { destruct (C28_implicit_layout m pass views binding wanted flag misc sep cmp U) as (-> & -> & ->). apply coherent_make, Hw. reflexivity. }
  all: rewrite C28_image_layout, C28_image_access by (rewrite U; discriminate).
  { destruct m; try discriminate U. split; [reflexivity|]. split; [discriminate|row]. }
  all: rewrite C28_image_stage_partial by (rewrite ?U; try discriminate; intros ->; discriminate U).
  { destruct m; try discriminate U; destruct cmp; split; try reflexivity; cbn; tauto. }
  all: destruct m; try discriminate U; destruct sep; (split; [reflexivity|]; split; [discriminate|]; row).
Qed.
Lemma layouts_coherent sep p : (forall a, In a (rp_images p) -> declared a) -> coherent_handler (pass_layouts sep p).
Proof.
  intro H. unfold pass_layouts.
  assert (G : forall l h, (forall a, In a l -> declared a) -> coherent_handler h -> coherent_handler (fold_left (fun h a => fold_left (fun h v =>
      fold_left (fun h s => setLayoutState h (v_image s) (v_type s) (v_range s) (mk_lstate (a_getImageLayout a sep) (a_getAccessMask a) (a_getPipelineStageFlags a (rp_compute p)))) (resolve_all v) h) (attach_views a) h) l h)).
  { induction l as [|a l IH]; intros h D C; [exact C|]. cbn [fold_left]. apply IH; [intros b Hb; apply D; right; exact Hb|].
    pose proof (declared_coherent a sep (rp_compute p) (D a (or_introl eq_refl))) as K. clear IH D. revert h C. generalize (attach_views a) as vs. induction vs as [|v vs IH]; intros h C; [exact C|]. cbn [fold_left]. apply IH.
    clear IH. revert h C. generalize (resolve_all v) as ss. induction ss as [|s ss IH]; intros h C; [exact C|]. cbn [fold_left]. apply IH, set_coherent; assumption. }
  apply G; [exact H|apply nil_coherent].
Qed.
Lemma merge_coherent next k cur : coherent_handler next -> coherent_layers (mergeRanges next k cur).
Proof.
  intro H. unfold mergeRanges. destruct (mfind k next) as [nxt|] eqn:E; [|intros a b Z; discriminate Z]. pose proof (proj1 (handler_layers next) H _ _ E) as N. clear E H.
  assert (M : forall nl (c acc : mip_states), coherent_mips nl -> coherent_mips acc -> coherent_mips (fold_left (fun acc e => match mfind (fst e) nl with Some s => minsert (fst e) s acc | None => acc end) c acc)).
  { intros nl c. induction c as [|x c IH]; intros acc A B; [exact B|]. cbn [fold_left]. apply IH; [exact A|]. destruct (mfind (fst x) nl) as [s|] eqn:E; [|exact B].
    intros mip t. rewrite mfind_minsert. destruct (mfind mip acc) as [u|] eqn:E2; [intro X; injection X as <-; apply (B _ _ E2)|].
    destruct (N.eqb_spec mip (fst x)) as [->|Z]; [intro X; injection X as <-; apply (A _ _ E)|discriminate]. }
  assert (G : forall (l : layer_states) acc, coherent_layers acc -> coherent_layers (fold_left (fun acc e => match mfind (fst e) nxt with Some nl => mput (fst e) (merge_levels (snd e) nl) acc | None => acc end) l acc)).
  { induction l as [|x l IH]; intros acc A; [exact A|]. cbn [fold_left]. apply IH. destruct (mfind (fst x) nxt) as [nl|] eqn:E; [|exact A].
    intros layer t. rewrite mfind_mput. destruct (N.eqb_spec layer (fst x)) as [->|Z]; [|apply A]. intro X. injection X as <-. apply M; [apply (N _ _ E)|intros a b Y; discriminate Y]. }
  apply G. intros a b Z. discriminate Z.
Qed.
Lemma shared_coherent next cur k m : coherent_handler next -> find_shared next cur = Some (k, m) -> coherent_layers m.
Proof.
  intro H. induction cur as [|[q s] cur IH]; [discriminate|]. cbn [find_shared]. pose proof (merge_coherent next q s H) as M.
  destruct (mergeRanges next q s) as [|y z]; [exact IH|]. intro E. injection E as <- <-. exact M.
Qed.
Lemma gather_coherent e : forall nexts cur result, (forall p, In p nexts -> forall a, In a (rp_images p) -> declared a) -> coherent_handler result -> coherent_handler (gather e cur nexts result).
Proof.
  induction nexts as [|p nexts IH]; intros cur result D R; [destruct cur; exact R|].
  assert (D' : forall q, In q nexts -> forall a, In a (rp_images q) -> declared a) by (intros q Hq; apply D; right; exact Hq).
  destruct cur as [|x cur]; [exact R|]. cbn [gather]. destruct (e_enabled e (rp_id p)); [|apply IH; assumption].
  destruct (find_shared (pass_layouts (e_separate e) p) (x :: cur)) as [[k m]|] eqn:E; [|apply IH; assumption]. apply IH; [exact D'|].
  pose proof (shared_coherent _ _ _ _ (layouts_coherent (e_separate e) p (D p (or_introl eq_refl))) E) as M.
  apply handler_layers. intros q t. rewrite mfind_minsert. destruct (mfind q result) as [u|] eqn:E2; [intro X; injection X as <-; apply (proj1 (handler_layers result) R _ _ E2)|].
  destruct (N.eqb_spec q k) as [->|Z]; [intro X; injection X as <-; exact M|discriminate].
Qed.
