(* Proofs about the stages and accesses of barriers: the recording. *)
From Verif Require Import Spec_Access Proof_Layout Proof_Record Props_Attach Proof_Access Proof_Flow2.
Local Open Scope N_scope.

(* A range that was set is known in that layout, or can never be known (it is empty). *)
Lemma range_set_get m m' r s : let x := getSubresourceRangeLayout (addSubresourceRangeLayout m r s) r in
  ls_layout x = ls_layout s \/ ls_layout (getSubresourceRangeLayout m' r) = L_UNDEFINED.
Proof.
  cbv zeta. unfold getSubresourceRangeLayout. cbv zeta.
  destruct (wrapped_from (r_layer r) (r_layers r)) as [|y ls] eqn:EL; [right; reflexivity|].
  destruct (wrapped_from (r_mip r) (r_levels r)) as [|z mips] eqn:EM.
  { right. assert (G : forall ls acc, fold_left (fun (acc : nmap lstate) layer => match mfind layer m' with None => acc | Some layers => fold_left (fun acc mip => match mfind mip layers with None => acc | Some s => collect acc s end) [] acc end) ls acc = acc).
    { induction ls0 as [|u ls0 IH]; intro acc; [reflexivity|]. cbn [fold_left]. destruct (mfind u m'); apply IH. }
    rewrite G. reflexivity. }
  left. set (am := addSubresourceRangeLayout m r s).
  assert (T : forall layer mip, In layer (y :: ls) -> In mip (z :: mips) -> tracked am layer mip = Some s).
  { intros layer mip H1 H2. subst am. unfold addSubresourceRangeLayout. rewrite EL, EM. rewrite layers_written.
    rewrite (proj2 (existsb_eqb_In layer (y :: ls)) H1), (proj2 (existsb_eqb_In mip (z :: mips)) H2). reflexivity. }
  (* all that is collected has the layout of [s], and something is *)
  set (P := fun states : nmap lstate => forall k t, In (k, t) states -> ls_layout t = ls_layout s).
  assert (PC : forall states, P states -> P (collect states s)).
  { intros states H k t. unfold collect. assert (Put : forall v, ls_layout v = ls_layout s -> P (mput (ls_layout s) v states)).
    { intros v Hv. clear -H Hv. induction states as [|[q w] st IH]; intros k t I; [destruct I as [I|[]]; injection I as <- <-; exact Hv|]. cbn [mput] in I.
      assert (H' : P st) by (intros a b J; apply (H a b); right; exact J).
      destruct (N.eqb _ q); [destruct I as [I|I]; [injection I as <- <-; exact Hv|apply (H' _ _ I)]|].
      destruct (N.ltb _ q); [destruct I as [I|I]; [injection I as <- <-; exact Hv|apply (H _ _ I)]|].
      destruct I as [I|I]; [injection I as <- <-; apply (H q w); left; reflexivity|apply (IH H' _ _ I)]. }
    destruct (mfind (ls_layout s) states) as [o|] eqn:E; apply Put; [|reflexivity]. cbn.
    clear -H E. induction states as [|[q w] st IH]; [discriminate E|]. cbn [mfind] in E. destruct (N.eqb _ q); [injection E as <-; apply (H q w); left; reflexivity|apply IH; [intros a b J; apply (H a b); right; exact J|exact E]]. }
  assert (NC : forall (states : nmap lstate) x, collect states x <> []).
  { intros states x. unfold collect. assert (Z : forall k (v : lstate) (l : nmap lstate), mput k v l <> []) by (intros k v [|[a b] l]; cbn [mput]; [discriminate|]; destruct (N.eqb k a), (N.ltb k a); discriminate). destruct (mfind _ states); apply Z. }
  set (inner := fun layers (acc : nmap lstate) mip => match mfind mip layers with None => acc | Some s => collect acc s end).
  set (outer := fun (acc : nmap lstate) layer => match mfind layer am with None => acc | Some layers => fold_left (inner layers) (z :: mips) acc end).
  assert (I1 : forall layers l acc, (forall mip, In mip l -> mfind mip layers = Some s) -> P acc -> P (fold_left (inner layers) l acc)).
  { intros layers. induction l as [|u l IH]; intros acc H A; [exact A|]. cbn [fold_left]. apply IH; [intros mip Hm; apply H; right; exact Hm|]. unfold inner. rewrite (H u (or_introl eq_refl)). apply PC, A. }
  assert (I2 : forall layers l (acc : nmap lstate), acc <> [] -> fold_left (inner layers) l acc <> []).
  { intros layers. induction l as [|u l IH]; intros acc A; [exact A|]. cbn [fold_left]. apply IH. unfold inner. destruct (mfind u layers); [apply NC|exact A]. }
  assert (O : forall l acc, incl l (y :: ls) -> P acc -> P (fold_left outer l acc) /\ (acc <> [] -> fold_left outer l acc <> [])).
  { induction l as [|u l IH]; intros acc H A; [split; [exact A|auto]|]. cbn [fold_left].
    assert (A' : P (outer acc u) /\ outer acc u <> []).
    { unfold outer. pose proof (fun mip Hm => T u mip (H u (or_introl eq_refl)) Hm) as Tu. unfold tracked in Tu. destruct (mfind u am) as [layers|]; [|specialize (Tu z (or_introl eq_refl)); discriminate Tu].
      split; [apply I1; assumption|]. cbn [fold_left]. apply I2. unfold inner. rewrite (Tu z (or_introl eq_refl)). apply NC. }
    destruct A' as [A1 A2]. destruct (IH (outer acc u) (fun q Hq => H q (or_intror Hq)) A1) as [B1 B2]. split; [exact B1|intros _; apply B2, A2]. }
  change (ls_layout match fold_left outer (y :: ls) [] with [] => makeLayoutState L_UNDEFINED | (_, x) :: _ => x end = ls_layout s).
  cbn [fold_left].
  assert (A' : P (outer [] y) /\ outer [] y <> []).
  { unfold outer. pose proof (fun mip Hm => T y mip (or_introl eq_refl) Hm) as Tu. unfold tracked in Tu. destruct (mfind y am) as [layers|]; [|specialize (Tu z (or_introl eq_refl)); discriminate Tu].
    split; [apply I1; [exact Tu|intros k t []]|]. cbn [fold_left]. apply I2. unfold inner. rewrite (Tu z (or_introl eq_refl)). apply NC. }
  destruct A' as [A1 A2]. destruct (O ls (outer [] y) (fun q Hq => or_intror Hq) A1) as [B1 B2]. specialize (B2 A2).
  destruct (fold_left outer ls (outer [] y)) as [|[k t] rest]; [destruct B2; reflexivity|]. apply (B1 k t). left. reflexivity.
Qed.
Lemma set_get_any h h' im vt r s :
  ls_layout (getLayoutState (setLayoutState h im vt r s) im vt r) = ls_layout s \/ ls_layout (getLayoutState h' im vt r) = L_UNDEFINED.
Proof.
  unfold getLayoutState, setLayoutState. rewrite mfind_mput, N.eqb_refl. destruct (mfind (i_id im) h') as [m'|]; [|right; reflexivity]. apply range_set_get.
Qed.

(* steps of the recording *)
Definition steady (x : rctx * list cmd) : Prop := coherent_context (fst x) /\ Forall fair (snd x).
Lemma steady_ret c : coherent_context c -> steady (c, []). Proof. intro H. split; [exact H|constructor]. Qed.
Lemma steady_seq x f : steady x -> (coherent_context (fst x) -> steady (f (fst x))) -> steady (x >>> f).
Proof.
  intros [A B] F. destruct x as [c l]. cbn [fst snd] in *. specialize (F A). unfold seq2. destruct (f c) as [c' l']. destruct F as [F1 F2]. split; [exact F1|]. apply Forall_app. auto.
Qed.
Definition plain (c : cmd) : Prop := match c with CImageBarrier _ _ _ _ _ _ _ _ | CBufferBarrier _ _ _ _ _ _ _ => False | _ => True end.
Lemma steady_emit l c : Forall plain l -> coherent_context c -> steady (emit l c).
Proof. intros P H. split; [exact H|]. cbn. apply (Forall_impl _ (P := plain)); [|exact P]. intros x Hx. left. destruct x; try exact I; destruct Hx. Qed.
Lemma steady_all {B} (f : B -> rctx -> rctx * list cmd) l : (forall x c, In x l -> coherent_context c -> steady (f x c)) -> forall c, coherent_context c -> steady (run_all f l c).
Proof.
  intros H c C. unfold run_all. assert (G : forall l' y, incl l' l -> steady y -> steady (fold_left (fun x a => x >>> f a) l' y)).
  { induction l' as [|a l' IH]; intros y I S; [exact S|]. cbn [fold_left]. apply IH; [intros z Hz; apply I; right; exact Hz|]. apply steady_seq; [exact S|]. apply H, I. left. reflexivity. }
  apply G; [apply incl_refl|apply steady_ret, C].
Qed.
Lemma ctx_set_images c h : coherent_context c -> coherent_handler h -> coherent_context (set_images c h).
Proof. intros (A & B & D & E) H. exact (conj H (conj B (conj D E))). Qed.
Lemma ctx_set_state c im vt r s : coherent_context c -> coherent s -> coherent_context (rc_setLayoutState c im vt r s).
Proof. intros C S. apply ctx_set_images; [exact C|]. apply set_coherent; [apply C|exact S]. Qed.
Lemma ctx_set_implicit c l : coherent_context c -> incl l (rc_implicit c) -> coherent_context (set_implicit c l).
Proof. intros (A & B & D & E) H. exact (conj A (conj B (conj D (fun p w a I => E p w a (H _ I))))). Qed.

Lemma handled_scope l : handled l -> scope_ok (ps_stage (ls_state (makeLayoutState l))) (ps_access (ls_state (makeLayoutState l))).
Proof.
  intro H. destruct (coherent_scope _ (coherent_make l H)) as [S|[G B]]; [exact S|]. cbn in G. subst l. split; [discriminate|row].
Qed.
Lemma steady_barrier sep c im vt r initial wanted force : coherent_context c -> coherent wanted -> scope_ok (ps_stage (ls_state wanted)) (ps_access (ls_state wanted)) ->
  (handled initial \/ ls_layout (rc_getLayoutState c im vt (adaptRange sep (i_format im) r)) <> L_UNDEFINED) -> steady (memoryBarrier sep c im vt r initial wanted force).
Proof.
  intros C W S I. unfold memoryBarrier. cbv zeta. set (r' := adaptRange sep (i_format im) r) in *.
  set (from := if N.eqb (ls_layout (rc_getLayoutState c im vt r')) L_UNDEFINED then makeLayoutState initial else rc_getLayoutState c im vt r').
  destruct (orb _ _); [|apply steady_ret, C]. split; [apply ctx_set_state; assumption|]. constructor; [|constructor].
  assert (F : coherent from). { subst from. destruct (N.eqb_spec (ls_layout (rc_getLayoutState c im vt r')) L_UNDEFINED) as [E|E]; [|apply get_coherent, C]. destruct I as [I|I]; [apply coherent_make, I|contradiction]. }
  destruct (coherent_scope _ F) as [Q|Q]; [left; split; assumption|right; exact Q].
Qed.
Lemma transfer_dst_handled : handled L_TRANSFER_DST. Proof. cbn. tauto. Qed.
Lemma transfer_src_handled : handled L_TRANSFER_SRC. Proof. cbn. tauto. Qed.
Lemma steady_to e c v l : coherent_context c -> handled l -> steady (barrier_to e c v l).
Proof. intros C H. apply steady_barrier; [exact C|apply coherent_make, H|apply handled_scope, H|left; cbn; tauto]. Qed.
Lemma steady_final e c v l : coherent_context c -> handled l -> steady (final_barrier e c v l).
Proof. intros C H. unfold final_barrier. destruct (N.eqb l L_UNDEFINED); [apply steady_ret, C|apply steady_to; assumption]. Qed.
Lemma take_first_incl v : forall l p a rest, take_first v l = Some (p, a, rest) -> (exists w, In (p, w, a) l) /\ incl rest l.
Proof.
  induction l as [|[[q w] b] l IH]; intros p a rest; [discriminate|]. cbn [take_first]. destruct (N.eqb (v_id w) v).
  - intro E. injection E as <- <- <-. split; [exists w; left; reflexivity|intros x Hx; right; exact Hx].
  - destruct (take_first v l) as [[[q' b'] r']|]; [|discriminate]. intro E. injection E as <- <- <-. destruct (IH _ _ _ eq_refl) as [(w' & A) B].
    split; [exists w'; right; exact A|]. intros x [<-|Hx]; [left; reflexivity|right; apply B, Hx].
Qed.
Lemma steady_implicit e i : coherent_env e -> forall fuel c v, coherent_context c -> steady (runImplicit_fuel fuel e c i v).
Proof.
  intro He. induction fuel as [|fuel IH]; intros c v C; cbn [runImplicit_fuel];
    (destruct (take_first (v_id v) (rc_implicit c)) as [[[p a] rest]|] eqn:T; [|apply steady_ret, C]);
    destruct (take_first_incl _ _ _ _ _ T) as [(w & I) L]; pose proof (ctx_set_implicit c rest C L) as C'; cbv zeta;
    (destruct (e_enabled e p); [apply steady_ret, C'|]). { apply steady_ret, C'. }
  assert (FO : final_ok a) by (destruct C as (_ & _ & _ & D); apply (D _ _ _ I)).
  destruct a as [src dst w0 h0 final|src dst [sx sy] [sw sh] [dx dy] [dw dh] filter final|views final|tag]; cbn [final_ok] in FO.
  - repeat (apply steady_seq; [|intro]); try (apply steady_to; [assumption|apply transfer_dst_handled || apply transfer_src_handled]); try (apply steady_final; assumption); try (apply steady_emit; [repeat constructor|assumption]). apply IH, C'.
  - repeat (apply steady_seq; [|intro]); try (apply steady_to; [assumption|apply transfer_dst_handled || apply transfer_src_handled]); try (apply steady_final; assumption); try (apply steady_emit; [repeat constructor|assumption]). apply IH, C'.
  - repeat (apply steady_seq; [|intro]); try (apply steady_to; [assumption|apply transfer_dst_handled || apply transfer_src_handled]); try (apply steady_final; assumption). apply steady_emit; [|assumption]. constructor; [|constructor]. destruct (isColourFormat _); exact I0 || exact Logic.I.
  - apply He, C'.
Qed.
Lemma current_coherent g c im vt r : coherent_graph g -> coherent_context c ->
  let x := getCurrentLayoutState g c im vt r in coherent_context (fst x) /\ coherent (snd x) /\
  (ls_layout (snd x) = L_UNDEFINED \/ ls_layout (rc_getLayoutState (fst x) im vt r) <> L_UNDEFINED).
Proof.
  intros (G1 & G2 & G3) C. cbv zeta. unfold getCurrentLayoutState. cbv zeta.
  destruct (N.eqb_spec (ls_layout (rc_getLayoutState c im vt r)) L_UNDEFINED) as [E|E]; cbn [negb]; [|cbn [fst snd]; split; [exact C|split; [apply get_coherent, C|right; exact E]]].
  destruct (N.eqb_spec (ls_layout (getLayoutState (g_inputs g) im vt r)) L_UNDEFINED) as [E1|E1]; cbn [negb].
  - destruct (N.eqb_spec (ls_layout (rc_getLayoutState (g_final g) im vt r)) L_UNDEFINED) as [E2|E2]; cbn [negb fst snd].
    + split; [exact C|]. split; [apply get_coherent, G3|left; exact E2].
    + pose proof (get_coherent (rc_images (g_final g)) im vt r (proj1 G3)) as K. split; [apply ctx_set_state; [exact C|exact K]|]. split; [exact K|]. right.
      unfold rc_getLayoutState at 1, rc_setLayoutState. cbn [set_images rc_images]. destruct (set_get_any (rc_images c) (rc_images (g_final g)) im vt r (rc_getLayoutState (g_final g) im vt r)) as [Q|Q]; [rewrite Q; exact E2|contradiction].
  - cbn [fst snd]. pose proof (get_coherent (g_inputs g) im vt r G1) as K. split; [apply ctx_set_state; [exact C|exact K]|]. split; [exact K|]. right.
    unfold rc_getLayoutState at 1, rc_setLayoutState. cbn [set_images rc_images]. destruct (set_get_any (rc_images c) (g_inputs g) im vt r (getLayoutState (g_inputs g) im vt r)) as [Q|Q]; [rewrite Q; exact E1|contradiction].
Qed.

(* one image attachment *)
Lemma adapt_get sep c im vt r : rc_getLayoutState c im vt (adaptRange sep (i_format im) r) = rc_getLayoutState c im vt r.
Proof. unfold adaptRange. destruct (andb _ _); [|reflexivity]. unfold rc_getLayoutState. apply aspect_ignored_get. Qed.
Lemma declared_layout_handled a sep : declared a ->
  orb (orb (isSampledView a) (isStorageView a)) (orb (isTransferView a) (isTransitionView a)) = true -> handled (a_getImageLayout a sep).
Proof.
  intros (m & pass & views & binding & wanted & flag & misc & -> & Hw) G. destruct (img_usage m) eqn:U.
  2: { destruct (C28_implicit_layout m pass views binding wanted flag misc sep false U) as (-> & _). apply Hw. reflexivity. }
  all: rewrite C28_image_layout by (rewrite U; discriminate).
  4, 5: exfalso; destruct m; discriminate U || (vm_compute in G; discriminate G).
  all: unfold named_layout; rewrite U; try (destruct (img_writes m)); cbn; tauto.
Qed.
Lemma steady_view sep c v initial wanted : coherent_context c -> coherent wanted -> scope_ok (ps_stage (ls_state wanted)) (ps_access (ls_state wanted)) ->
  (handled initial \/ ls_layout (rc_getLayoutState c (v_image v) (v_type v) (v_range v)) <> L_UNDEFINED) -> steady (memoryBarrier_view sep c v initial wanted).
Proof. intros C W S H. apply steady_barrier; try assumption. rewrite adapt_get. exact H. Qed.
Lemma transfer_dst_coherent : coherent transfer_dst_state /\ scope_ok (ps_stage (ls_state transfer_dst_state)) (ps_access (ls_state transfer_dst_state)).
Proof. split; [split; [reflexivity|]|]; (split; [discriminate|row]). Qed.
Lemma steady_image e g p a c : coherent_env e -> coherent_graph g -> declared a -> coherent_context c -> steady (record_image e g p a c).
Proof.
  intros He Hg Ha C. unfold record_image. cbv zeta. set (v := attach_view a (rp_index p)).
  apply steady_seq; [apply steady_implicit; assumption|]. set (c1 := fst (runImplicit e c (rp_index p) v)). intro C1. clearbody c1. clear C.
  match goal with |- steady (if ?b then _ else _) => destruct b eqn:G end; [|apply steady_ret, C1].
  apply andb_true_iff in G. destruct G as [_ G]. pose proof (declared_layout_handled a (e_separate e) Ha G) as HL.
  set (x := if isInput a then getCurrentLayoutState g c1 (v_image v) (v_type v) (v_range v) else (c1, makeLayoutState L_UNDEFINED)).
  assert (X : coherent_context (fst x) /\ (handled (ls_layout (snd x)) \/ ls_layout (rc_getLayoutState (fst x) (v_image v) (v_type v) (v_range v)) <> L_UNDEFINED)).
  { subst x. destruct (isInput a).
    - destruct (current_coherent g c1 (v_image v) (v_type v) (v_range v) Hg C1) as (K1 & K2 & K3). split; [exact K1|]. destruct K3 as [K3|K3]; [left; rewrite K3; cbn; tauto|right; exact K3].
    - split; [exact C1|]. left. cbn. tauto. }
  destruct x as [c2 cur]. cbn [fst snd] in X. destruct X as [C2 X]. destruct (isClearableImage a).
  - apply steady_seq; [apply steady_seq; [|intro C3; apply steady_emit; [constructor; [destruct (isColourFormat _); exact Logic.I|constructor]|exact C3]]|].
    + destruct transfer_dst_coherent. apply steady_view; assumption.
    + intro C3. apply steady_view; [exact C3|apply coherent_make, HL|apply handled_scope, HL|left; apply transfer_dst_handled].
  - apply steady_view; [exact C2|apply coherent_make, HL|apply handled_scope, HL|exact X].
Qed.

(* buffers *)
Lemma bottom_scope : scope_ok S_BOTTOM 0. Proof. split; [discriminate|apply allows_0]. Qed.
Lemma access_scope c b : coherent_context c -> scope_ok (ps_stage (getAccessState c b)) (ps_access (getAccessState c b)).
Proof. intros (_ & _ & B & _). unfold getAccessState. destruct (mfind b (rc_buffers c)) as [s|] eqn:E; [apply (B _ _ E)|apply bottom_scope]. Qed.
Lemma steady_bufferBarrier c b off size mask st wanted force : coherent_context c -> scope_ok st mask -> scope_ok (ps_stage wanted) (ps_access wanted) ->
  steady (bufferBarrier c b off size mask st wanted force).
Proof.
  intros C M W. unfold bufferBarrier. cbv zeta. set (from := if N.eqb _ _ then _ else _).
  assert (F : scope_ok (ps_stage from) (ps_access from)) by (subst from; destruct (N.eqb _ _); [exact M|apply access_scope, C]).
  destruct (orb _ _); [|apply steady_ret, C]. split.
  - destruct C as (A & B & D & E). refine (conj A (conj B (conj _ E))). intros q s. cbn [fst set_buffers rc_buffers]. rewrite mfind_mput. destruct (N.eqb q b); [|apply D]. intro X. injection X as <-. exact W.
  - constructor; [|constructor]. left. split; assumption.
Qed.
Lemma declared_buffer_scope a cmp : declared_buffer a -> scope_ok (a_getPipelineStageFlags a cmp) (a_getAccessMask a).
Proof.
  intros (m & pass & bufs & binding & bview & off & size & wanted & flag & -> & Hf & Hw).
  destruct (buffer_usage m) eqn:U.
  1: { destruct m; try discriminate U; destruct cmp; (split; [discriminate|row]). }
  3: { destruct (C28_implicit_buffer m pass bufs binding bview off size wanted flag cmp U) as (-> & ->). apply Hw. reflexivity. }
  all: destruct (C28_buffer_access_partial m pass bufs binding bview off size wanted flag cmp) as (-> & ->); try (rewrite U; discriminate); try exact Hf.
  all: destruct m; try discriminate U; destruct cmp; (split; [discriminate|row]).
Qed.
Lemma steady_buffer p a c : declared_buffer a -> coherent_context c -> steady (record_buffer p a c).
Proof.
  intros Ha C. unfold record_buffer. cbv zeta. destruct (andb _ _); [|apply steady_ret, C]. pose proof (declared_buffer_scope a (rp_compute p) Ha) as W. pose proof (access_scope c (attach_buffer a (rp_index p)) C) as F.
  destruct (isClearableBuffer a).
  - apply steady_seq; [apply steady_seq; [|intro C1; apply steady_emit; [repeat constructor|exact C1]]|].
    + apply steady_bufferBarrier; [exact C|exact F|split; [discriminate|row]].
    + intro C1. apply steady_bufferBarrier; [exact C1|split; [discriminate|row]|exact W].
  - apply steady_bufferBarrier; assumption.
Qed.

(* one pass, all the passes *)
Lemma steady_register p c : (forall w a, In (w, a) (rp_implicit p) -> final_ok a) -> coherent_context c -> coherent_context (register_all p c).
Proof.
  unfold register_all. generalize (rp_implicit p) as l. induction l as [|[w a] l IH] in c |- *; intros H C; [exact C|]. cbn [fold_left fst snd]. apply IH; [intros w' a' I; apply (H w' a'); right; exact I|].
  destruct C as (A & B & D & E). refine (conj A (conj B (conj D _))). intros q w' a' I. cbn [registerImplicit set_implicit rc_implicit] in I. apply in_app_iff in I. destruct I as [I|[I|[]]]; [apply (E q w' a' I)|]. injection I as <- <- <-. apply (H w a). left. reflexivity.
Qed.
Lemma steady_record e g p c : coherent_env e -> coherent_graph g -> coherent_pass p -> coherent_context c -> steady (recordInto e g p c).
Proof.
  intros He Hg (Pi & Pb & Pf & Pa) C. unfold recordInto. destruct (e_enabled e (rp_id p)).
  2: { split; [apply steady_register; assumption|constructor]. }
  match goal with |- steady (let '(c, l) := ?y in _) => set (x := y); assert (X : steady x) end.
  { subst x. repeat (apply steady_seq; [|intro]).
    - apply (steady_emit [CBeginBlock (rp_id p); CTimerBegin (rp_id p)] c); [repeat constructor|exact C].
    - apply steady_all; [|assumption]. intros a c' Ia Cc. apply steady_image; try assumption. apply Pi, Ia.
    - apply steady_all; [|assumption]. intros a c' Ia Cc. apply steady_buffer; try assumption. apply Pb, Ia.
    - apply steady_all; [|assumption]. intros f c' If Cc. apply (Pf f (or_introl If)), Cc.
    - apply (Pf (rp_record p) (or_intror (or_intror eq_refl))). assumption.
    - apply steady_all; [|assumption]. intros f c' If Cc. apply (Pf f (or_intror (or_introl If))), Cc.
    - apply steady_emit; [repeat constructor|assumption]. }
  destruct x as [c' l]. destruct X as [X1 X2]. split; [apply steady_register; assumption|exact X2].
Qed.
Lemma next_coherent c s h : coherent_context c -> coherent_handler h -> coherent_context (setNextPipelineState c s h).
Proof. intros (A & B & D & E) H. exact (conj A (conj H (conj D E))). Qed.
Lemma prepare_coherent e g p rest c : coherent_graph g -> coherent_pass p -> (forall q, In q rest -> coherent_pass q) -> coherent_context c -> coherent_context (prepare e g p rest c).
Proof.
  intros Hg Hp Hr C. unfold prepare. destruct rest as [|q rest]; apply next_coherent; try assumption; [apply Hg|]. apply gather_coherent; [|apply nil_coherent]. intros x Ix a Ia. apply (Hr x Ix), Ia.
Qed.
Lemma steady_loop e g : coherent_env e -> coherent_graph g -> forall passes c, (forall p, In p passes -> coherent_pass p) -> coherent_context c ->
  let '(c', l, tr) := record_loop e g passes c in coherent_context c' /\ Forall fair l.
Proof.
  intros He Hg. induction passes as [|p rest IH]; intros c H C; [split; [exact C|constructor]|]. cbn [record_loop]. cbv zeta.
  assert (C1 : coherent_context (prepare e g p rest c)) by (apply prepare_coherent; [exact Hg|apply H; left; reflexivity|intros q Iq; apply H; right; exact Iq|exact C]).
  pose proof (steady_record e g p _ He Hg (H p (or_introl eq_refl)) C1) as S. destruct (recordInto e g p (prepare e g p rest c)) as [c2 l1]. destruct S as [S1 S2]. cbn [fst snd] in S1, S2.
  specialize (IH c2 (fun q Iq => H q (or_intror Iq)) S1). destruct (record_loop e g rest c2) as [[c3 l2] tr]. destruct IH as [I1 I2]. split; [exact I1|apply Forall_app; auto].
Qed.
Lemma new_coherent : coherent_context new_rctx.
Proof. split; [apply nil_coherent|]. split; [apply nil_coherent|]. split; [intros b s E; discriminate E|intros p w a []]. Qed.
Lemma addStates_coherent c d : coherent_context c -> coherent_context d -> coherent_context (rc_addStates c d).
Proof.
  intros (A & B & D & E) (A' & B' & D' & E'). split; [apply add_coherent; assumption|]. split; [exact B|]. split; [|exact E].
  intros b s. cbn [rc_addStates rc_buffers]. clear -D D'. revert D D'. generalize (rc_buffers c) as x. generalize (rc_buffers d) as y. intros y x D D'.
  assert (F : forall (y x : nmap pstate) q, mfind q (fold_left (fun acc e => minsert (fst e) (snd e) acc) y x) = match mfind q x with Some m => Some m | None => mfind q y end).
  { clear. intro y. induction y as [|[k v] y IH]; intros x q; simpl; [destruct (mfind q x); reflexivity|]. rewrite IH, mfind_minsert. destruct (mfind q x); [reflexivity|]. destruct (N.eqb q k); reflexivity. }
  rewrite F. destruct (mfind b x) as [t|] eqn:E; [intro X; injection X as <-; apply (D _ _ E)|apply D'].
Qed.
Lemma start_coherent e deps passes : (forall d, In d deps -> coherent_context d) -> (forall p, In p passes -> coherent_pass p) -> coherent_context (start_context e deps passes).
Proof.
  intros H P. unfold start_context. cbv zeta.
  assert (C : coherent_context (fold_left rc_addStates deps new_rctx)).
  { generalize new_coherent. generalize new_rctx as c. clear -H. induction deps as [|d deps IH]; intros c C; [exact C|]. cbn [fold_left]. apply IH; [intros x Ix; apply H; right; exact Ix|]. apply addStates_coherent; [exact C|apply H; left; reflexivity]. }
  destruct passes as [|p passes]; [exact C|]. apply next_coherent; [exact C|]. apply layouts_coherent. apply (P p (or_introl eq_refl)).
Qed.
Lemma steady_graph e g deps passes : coherent_env e -> coherent_graph g -> (forall d, In d deps -> coherent_context d) -> (forall p, In p passes -> coherent_pass p) ->
  let '(g', l, tr) := record_graph e g deps passes in coherent_graph g' /\ Forall fair l.
Proof.
  intros He Hg Hd Hp. unfold record_graph. pose proof (steady_loop e g He Hg passes (start_context e deps passes) Hp (start_coherent e deps passes Hd Hp)) as S.
  destruct (record_loop e g passes (start_context e deps passes)) as [[c l] tr]. destruct S as [S1 S2]. split; [|exact S2]. destruct Hg as (G1 & G2 & _). exact (conj G1 (conj G2 S1)).
Qed.
