(* C115: implicit actions do what they were asked to do. *)
From Verif Require Import Spec_Implicit Proof_Layout Proof_Record Proof_Passes.
From Coq Require Import Lia ZifyBool ZifyNat ZifyN.
Local Open Scope N_scope.

Lemma effects_app l1 l2 : effects (l1 ++ l2) = effects l1 ++ effects l2.
Proof. unfold effects. apply flat_map_app. Qed.
Lemma effects_seq x f : effects (snd (x >>> f)) = effects (snd x) ++ effects (snd (f (fst x))).
Proof. destruct x as [c l]. cbn. destruct (f c) as [c' l']. cbn. apply effects_app. Qed.
Lemma fst_seq x f : fst (x >>> f) = fst (f (fst x)).
Proof. destruct x as [c l]. cbn. destruct (f c) as [c' l']. reflexivity. Qed.
Lemma effects_to e c v l : effects (snd (barrier_to e c v l)) = [] /\ rc_implicit (fst (barrier_to e c v l)) = rc_implicit c.
Proof. unfold barrier_to, memoryBarrier. destruct (orb _ _); split; reflexivity. Qed.
Lemma effects_final e c v l : effects (snd (final_barrier e c v l)) = [] /\ rc_implicit (fst (final_barrier e c v l)) = rc_implicit c.
Proof. unfold final_barrier. destruct (N.eqb l L_UNDEFINED); [split; reflexivity|apply effects_to]. Qed.

Lemma take_waiting v l : match take_first (v_id v) l with
  | Some (p, a, rest) => waiting_first v l p a rest
  | None => forall p w a, In (p, w, a) l -> v_id w <> v_id v end.
Proof.
  induction l as [|[[p w] a] r IH]; cbn [take_first]; [intros ? ? ? []|].
  destruct (N.eqb_spec (v_id w) (v_id v)) as [E|E].
  - exists [], w, r. repeat split; auto; intros ? ? ? [].
  - destruct (take_first (v_id v) r) as [[[p' a'] r']|].
    + destruct IH as (b & w' & af & -> & -> & E' & No). exists ((p, w, a) :: b), w', af.
      repeat split; auto. intros q x y [I|I]; [injection I as <- <- <-; exact E|eapply No; exact I].
    + intros q x y [I|I]; [injection I as <- <- <-; exact E|eapply IH; exact I].
Qed.
Lemma waiting_in v l p a rest : waiting_first v l p a rest -> (exists w, In (p, w, a) l) /\ incl rest l.
Proof.
  intros (b & w & af & -> & -> & _ & _). split; [exists w; apply in_app_iff; right; left; reflexivity|].
  intros x I. apply in_app_iff in I. apply in_app_iff. destruct I; [left|right; right]; assumption.
Qed.
Lemma waiting_same v l p a rest p' a' rest' : waiting_first v l p a rest -> waiting_first v l p' a' rest' -> p = p' /\ a = a' /\ rest = rest'.
Proof.
  intros (b & w & af & -> & -> & E & No) (b' & w' & af' & Q & -> & E' & No').
  revert b' Q No'. induction b as [|[[q x] y] b IH]; intros [|[[q' x'] y'] b'] Q No'; cbn [app] in *.
  - injection Q as <- <- <- <-. auto.
  - injection Q as <- <- <- Q. exfalso. eapply No'; [left; reflexivity|exact E].
  - injection Q as <- <- <- Q. exfalso. eapply No; [left; reflexivity|exact E'].
  - injection Q as <- <- <- Q. destruct (IH (fun a b c I => No a b c (or_intror I)) b' Q (fun a b c I => No' a b c (or_intror I))) as (-> & -> & R). 
    rewrite R. auto.
Qed.
Lemma colour_format f : (isColourFormat f = true <-> ~ depth_or_stencil f).
Proof.
  unfold isColourFormat, isDepthFormat, isStencilFormat, depth_or_stencil. cbn [existsb].
  unfold F_D16, F_X8_D24, F_D32, F_S8, F_D16_S8, F_D24_S8, F_D32_S8. lia.
Qed.
Lemma view_for_is views i v : view_for views i v -> match views with [x] => x | l => nth i l dummy_view end = v.
Proof.
  intros [w j|l j w Hl Hn]; [reflexivity|]. destruct l as [|x [|y r]]; [destruct j; discriminate|cbn in Hl; lia|].
  apply nth_error_nth. exact Hn.
Qed.
Lemma first_texels v p q : r_layers (v_range v) = 1 -> texels (i_id (v_image v)) (first_sub (v_range v)) p q = Texels (i_id (v_image v)) (r_aspect (v_range v)) (r_mip (v_range v)) (r_layer (v_range v)) (r_layers (v_range v)) p q.
Proof. intro H. unfold texels, first_sub. cbn. rewrite H. reflexivity. Qed.

Lemma does_as_asked e i : forall fuel c v, (length (rc_implicit c) <= fuel)%nat ->
  (forall p w a, In (p, w, a) (rc_implicit c) -> simple_action i a) ->
  used (e_enabled e) i (rc_implicit c) v (effects (snd (runImplicit_fuel fuel e c i v))) (rc_implicit (fst (runImplicit_fuel fuel e c i v))).
Proof.
  induction fuel as [|fuel IH]; intros c v L S; cbn [runImplicit_fuel]; pose proof (take_waiting v (rc_implicit c)) as T.
  - destruct (rc_implicit c) eqn:E; [|cbn in L; lia]. cbn. rewrite E. apply used_none. intros ? ? ? [].
  - destruct (take_first (v_id v) (rc_implicit c)) as [[[p a] rest]|] eqn:E; [|apply used_none; exact T].
    apply take_first_length in E.
    destruct (e_enabled e p) eqn:En; [cbn; eapply used_enabled; eassumption|].
    destruct (waiting_in _ _ _ _ _ T) as [[w In1] Sub]. pose proof (S _ _ _ In1) as Sa.
    assert (Lr : (length (rc_implicit (set_implicit c rest)) <= fuel)%nat) by (cbn; lia).
    assert (Sr : forall p w a, In (p, w, a) (rc_implicit (set_implicit c rest)) -> simple_action i a) by (intros ? ? ? I; eapply S; apply Sub; exact I).
    destruct a as [src dst cw ch final|src dst [sx sy] [sw sh] [dx dy] [dw dh] filter final|views final|tag]; [| | |destruct Sa].
    + destruct Sa as [H1 H2]. specialize (IH (set_implicit c rest) src Lr Sr). change (rc_implicit (set_implicit c rest)) with rest in IH.
      rewrite !effects_seq, !fst_seq. rewrite !(fun c => proj1 (effects_to e c _ _)), (fun c => proj1 (effects_final e c _ _)), !app_nil_r.
      rewrite (fun c => proj2 (effects_final e c _ _)). unfold emit. cbn [fst snd]. rewrite !(fun c => proj2 (effects_to e c _ _)). eapply used_reads; [exact T|exact En|reflexivity|exact IH|].
      cbn. rewrite !first_texels by assumption. apply asked_copy.
    + destruct Sa as (H1 & H2 & H3 & H4). injection H3 as -> ->. injection H4 as -> ->.
      specialize (IH (set_implicit c rest) src Lr Sr). change (rc_implicit (set_implicit c rest)) with rest in IH.
      rewrite !effects_seq, !fst_seq. rewrite !(fun c => proj1 (effects_to e c _ _)), (fun c => proj1 (effects_final e c _ _)), !app_nil_r.
      rewrite (fun c => proj2 (effects_final e c _ _)). unfold emit. cbn [fst snd]. rewrite !(fun c => proj2 (effects_to e c _ _)). eapply used_reads; [exact T|exact En|reflexivity|exact IH|].
      cbn. rewrite !first_texels by assumption. apply asked_blit.
    + destruct Sa as [x Hx]. cbv zeta. rewrite !(view_for_is _ _ _ Hx).
      rewrite !effects_seq, !fst_seq. rewrite !(fun c => proj1 (effects_to e c _ _)), (fun c => proj1 (effects_final e c _ _)), !app_nil_r.
      rewrite (fun c => proj2 (effects_final e c _ _)). unfold emit. cbn [fst snd]. rewrite !(fun c => proj2 (effects_to e c _ _)).
      cbn [app rc_implicit set_implicit].
      assert (Q : effects [if isColourFormat (v_format x) then CClearColour (i_id (v_image x)) L_TRANSFER_DST (v_range x) else CClearDepthStencil (i_id (v_image x)) L_TRANSFER_DST (v_range x)] =
        [Cleared (isColourFormat (v_format x)) (i_id (v_image x)) (v_range x)]) by (destruct (isColourFormat (v_format x)); reflexivity).
      rewrite Q. eapply used_clears; [exact T|exact En|reflexivity|]. apply asked_clear; [exact Hx|apply colour_format].
Qed.

(** C115: using a view does what the actions waiting for it were asked to do, one after the other, the view
    read before the view written, each only if its pass is disabled, and nothing else. *)
Theorem C115_does_what_is_asked_partial : forall e index c v,
  (forall p w a, In (p, w, a) (rc_implicit c) -> simple_action index a) ->
  used (e_enabled e) index (rc_implicit c) v (effects (snd (runImplicit e c index v))) (rc_implicit (fst (runImplicit e c index v))).
Proof. intros. apply does_as_asked; [apply le_n|assumption]. Qed.
Print Assumptions C115_does_what_is_asked_partial.
(* ... and this says all: what is done is determined by the registrations. *)
Theorem C115_one_outcome : forall enabled index l v x r x' r',
  used enabled index l v x r -> used enabled index l v x' r' -> x = x' /\ r = r'.
Proof.
  intros enabled index l v x r x' r' U. revert x' r'.
  assert (A : forall a x x', asked_to index a x -> asked_to index a x' -> x = x').
  { assert (VF : forall l v w, view_for l index v -> view_for l index w -> v = w) by (intros l0 v0 w0 P Q; rewrite <- (view_for_is _ _ _ P); apply view_for_is, Q).
    intros a y y' [s d w h f|s d sx sy sw sh dx dy dw dh ft f|vs f u col P Q] B; inversion B as [| |? ? u' col' P' Q']; subst; try reflexivity.
    rewrite (VF _ _ _ P' P) in *. f_equal. destruct col, col'; try reflexivity; exfalso.
    - assert (false = true) as D by (apply Q', Q; reflexivity). discriminate D.
    - assert (false = true) as D by (apply Q, Q'; reflexivity). discriminate D. }
  assert (W : forall v l p a rest, waiting_first v l p a rest -> (forall p w a, In (p, w, a) l -> v_id w <> v_id v) -> False).
  { intros u k p a rest (b & w & af & -> & _ & E & _) No. eapply No; [|exact E]. apply in_app_iff. right. left. reflexivity. }
  induction U as [l v No|l v p a rest T En|l v p a rest s first rest' x T En R U IH As|l v p a rest x T En R As];
    intros y q V; inversion V as [? ? No'|? ? p' a' rest2 T' En'|? ? p' a' rest2 s' first' rest3 x' T' En' R' U' As'|? ? p' a' rest2 x' T' En' R' As']; subst;
    try (exfalso; eapply W; eassumption); try (split; reflexivity);
    destruct (waiting_same _ _ _ _ _ _ _ _ T T') as (-> & -> & ->); try congruence.
  - split; reflexivity.
  - rewrite R in R'. injection R' as <-. destruct (IH _ _ U') as [-> ->]. rewrite (A _ _ _ As As'). split; reflexivity.
  - rewrite (A _ _ _ As As'). split; reflexivity.
Qed.
Print Assumptions C115_one_outcome.

(* Only the first layer of each view is copied: as asked exactly when the views have one layer. *)
Lemma run_first e i c v p a rest : waiting_first v (rc_implicit c) p a rest -> e_enabled e p = false ->
  exists fuel, (length rest <= fuel)%nat /\ runImplicit e c i v = 
   match a with
   | ACopy src dst w h final =>
       runImplicit_fuel fuel e (set_implicit c rest) i src >>> (fun c => barrier_to e c src L_TRANSFER_SRC) >>> (fun c => barrier_to e c dst L_TRANSFER_DST)
       >>> emit [CCopyImage (i_id (v_image src)) L_TRANSFER_SRC (i_id (v_image dst)) L_TRANSFER_DST (first_sub (v_range src)) (first_sub (v_range dst)) w h]
       >>> (fun c => final_barrier e c dst final)
   | ABlit src dst (sx, sy) (sw, sh) (dx, dy) (dw, dh) filter final =>
       runImplicit_fuel fuel e (set_implicit c rest) i src >>> (fun c => barrier_to e c src L_TRANSFER_SRC) >>> (fun c => barrier_to e c dst L_TRANSFER_DST)
       >>> emit [CBlitImage (i_id (v_image src)) L_TRANSFER_SRC (i_id (v_image dst)) L_TRANSFER_DST
                        (first_sub (v_range src)) (first_sub (v_range dst)) (sx, sy, 0) (sw, sh, 1) (dx, dy, 0) (dw, dh, 1) filter]
       >>> (fun c => final_barrier e c dst final)
   | AClear views final =>
       let dst := match views with [x] => x | l => nth i l dummy_view end in
       barrier_to e (set_implicit c rest) dst L_TRANSFER_DST
       >>> emit [if isColourFormat (v_format dst) then CClearColour (i_id (v_image dst)) L_TRANSFER_DST (v_range dst) else CClearDepthStencil (i_id (v_image dst)) L_TRANSFER_DST (v_range dst)]
       >>> (fun c => final_barrier e c dst final)
   | AUser tag => e_action e tag (set_implicit c rest) i
   end.
Proof.
  intros T En. unfold runImplicit. pose proof (take_waiting v (rc_implicit c)) as T'.
  destruct (take_first (v_id v) (rc_implicit c)) as [[[p' a'] rest']|] eqn:E.
  2:{ exfalso. destruct T as (b & w & af & Q & _ & E' & _). eapply T'; [|exact E']. rewrite Q. apply in_app_iff. right. left. reflexivity. }
  destruct (waiting_same _ _ _ _ _ _ _ _ T T') as (<- & <- & <-). pose proof (take_first_length _ _ _ _ _ E) as L. rewrite L.
  exists (length rest). split; [apply le_n|]. cbn [runImplicit_fuel]. rewrite E, En.
  destruct a as [src dst w h final|src dst [sx sy] [sw sh] [dx dy] [dw dh] filter final|views final|tag]; reflexivity.
Qed.
Lemma runs_nothing e i fuel c v : (length (rc_implicit c) <= fuel)%nat -> (forall p w a, In (p, w, a) (rc_implicit c) -> v_id w <> v_id v) ->
  runImplicit_fuel fuel e c i v = (c, []).
Proof.
  intros L No. pose proof (take_waiting v (rc_implicit c)) as T. destruct fuel; cbn [runImplicit_fuel]; destruct (take_first (v_id v) (rc_implicit c)) as [[[p a] rest]|]; try reflexivity;
    exfalso; destruct T as (b & w & af & Q & _ & E' & _); eapply No; [|exact E'| |exact E']; rewrite Q; apply in_app_iff; right; left; reflexivity.
Qed.
Theorem C115_whole_copy_iff_one_layer : forall e index c v pass rest src dst w h final,
  waiting_first v (rc_implicit c) pass (ACopy src dst w h final) rest -> e_enabled e pass = false ->
  (forall p u a, In (p, u, a) rest -> v_id u <> v_id src) ->
  (effects (snd (runImplicit e c index v)) = [Moved (view_texels src (0, 0, 0) (w, h, 1)) (view_texels dst (0, 0, 0) (w, h, 1))]
   <-> r_layers (v_range src) = 1 /\ r_layers (v_range dst) = 1).
Proof.
  intros e i c v p rest src dst w h final T En No. destruct (run_first e i c v p _ rest T En) as (fuel & L & ->). cbv iota.
  rewrite runs_nothing by (cbn; assumption). rewrite !effects_seq. rewrite !(fun c => proj1 (effects_to e c _ _)), (fun c => proj1 (effects_final e c _ _)).
  unfold emit. cbn [fst snd app]. cbn [effects flat_map app]. unfold effect_of, texels, first_sub, view_texels. cbn.
  split; [intro H; injection H as <- <-; split; reflexivity|intros [-> ->]; reflexivity].
Qed.
Print Assumptions C115_whole_copy_iff_one_layer.
Theorem C115_blit_iff_no_offset : forall e index c v pass rest src dst so ss doff ds filter final,
  waiting_first v (rc_implicit c) pass (ABlit src dst so ss doff ds filter final) rest -> e_enabled e pass = false ->
  (forall p u a, In (p, u, a) rest -> v_id u <> v_id src) ->
  ((exists x, asked_to index (ABlit src dst so ss doff ds filter final) x /\ effects (snd (runImplicit e c index v)) = [x])
   <-> r_layers (v_range src) = 1 /\ r_layers (v_range dst) = 1 /\ so = (0, 0) /\ doff = (0, 0)).
Proof.
  intros e i c v p rest src dst [sx sy] [sw sh] [dx dy] [dw dh] filter final T En No. destruct (run_first e i c v p _ rest T En) as (fuel & L & ->). cbv iota.
  rewrite runs_nothing by (cbn; assumption). rewrite !effects_seq. rewrite !(fun c => proj1 (effects_to e c _ _)), (fun c => proj1 (effects_final e c _ _)).
  unfold emit. cbn [fst snd app]. cbn [effects flat_map app effect_of moves map fst snd]. unfold texels, first_sub, view_texels. cbn [r_aspect r_mip r_layer r_layers].
  split.
  - intros (x & A & Q). inversion A; subst. injection Q as Q. unfold view_texels, add3 in *. cbn [fst snd] in *. rewrite <- ?H in *. 
    repeat split; try congruence; f_equal; try lia.
  - intros (E1 & E2 & E3 & E4). injection E3 as -> ->. injection E4 as -> ->. eexists. split; [apply asked_blit|]. unfold view_texels, add3. cbn. rewrite E1, E2. reflexivity.
Qed.
Print Assumptions C115_blit_iff_no_offset.

(** The view written is left in the final layout asked for, or, when none is asked, in the layout of a transfer. *)
Lemma to_known e c d l : view_ok d -> l <> L_UNDEFINED -> known_layout (fst (barrier_to e c d l)) d = l.
Proof.
  intros Hd Hl. change (barrier_to e c d l) with (memoryBarrier_view (e_separate e) c d L_UNDEFINED (makeLayoutState l)).
  destruct (barrier_view_effect (e_separate e) c d L_UNDEFINED (makeLayoutState l) Hd) as (_ & _ & H). apply H; [exact Hl|right].
  intro E. apply Hl. symmetry. exact E.
Qed.
Lemma ret_seq c f : (c, []) >>> f = f c.
Proof. unfold seq2. destruct (f c). reflexivity. Qed.
Theorem C115_left_in_final_layout : forall e index c v pass a rest d,
  waiting_first v (rc_implicit c) pass a rest -> e_enabled e pass = false -> writes index a d -> view_ok d ->
  known_layout (fst (runImplicit e c index v)) d = if N.eqb (leaves a) L_UNDEFINED then L_TRANSFER_DST else leaves a.
Proof.
  intros e i c v p a rest d T En W Hd. destruct (run_first e i c v p _ rest T En) as (fuel & _ & ->).
  assert (F : forall x cmds final, known_layout (fst (x >>> (fun c => barrier_to e c d L_TRANSFER_DST) >>> emit cmds >>> (fun c => final_barrier e c d final))) d =
     if N.eqb final L_UNDEFINED then L_TRANSFER_DST else final).
  { intros x cmds final. rewrite !fst_seq. unfold emit. cbn [fst]. unfold final_barrier. destruct (N.eqb_spec final L_UNDEFINED) as [E|E].
    - cbn [fst]. apply to_known; [exact Hd|discriminate].
    - apply to_known; assumption. }
  destruct a as [src dst w h final|src dst [sx sy] [sw sh] [dx dy] [dw dh] filter final|views final|tag]; cbn [writes leaves] in *; [subst dst..| |destruct W].
  - apply F.
  - apply F.
  - cbv zeta. rewrite (view_for_is _ _ _ W). specialize (F (set_implicit c rest, [])). rewrite ret_seq in F. apply F.
Qed.
Print Assumptions C115_left_in_final_layout.

Definition iv (id im : N) (layers format : N) : view :=
  mkView id {| i_id := im; i_width := 64; i_height := 64; i_depth := 1; i_levels := 4; i_layers := 6; i_format := format |} 0 VT_2D_ARRAY format
    {| r_aspect := getAspectMask format; r_mip := 1; r_levels := 1; r_layer := 2; r_layers := layers |} [].
Definition off2 : env := {| e_separate := false; e_enabled := fun p => N.eqb p 3; e_action := fun t c _ => (c, [CUser t]) |}.
Definition waiting : rctx := set_implicit new_rctx
  [(1, iv 1 1 1 37, ACopy (iv 2 2 1 37) (iv 1 1 1 37) 32 32 L_SHADER_READ_ONLY);
   (2, iv 2 2 1 37, ABlit (iv 3 3 1 37) (iv 2 2 1 37) (0, 0) (32, 32) (0, 0) (16, 16) 1 L_UNDEFINED);
   (3, iv 3 3 1 37, AClear [iv 3 3 1 37] L_GENERAL);
   (2, iv 1 1 1 37, AClear [iv 5 5 1 126; iv 1 1 1 37] L_UNDEFINED)].
(* The source of a copy is itself blitted first; the clear of the third view belongs to an enabled pass. *)
Example C115_applies :
  (forall p w a, In (p, w, a) (rc_implicit waiting) -> simple_action 1 a) /\
  effects (snd (runImplicit off2 waiting 1 (iv 1 1 1 37))) =
    [Moved (view_texels (iv 3 3 1 37) (0, 0, 0) (32, 32, 1)) (view_texels (iv 2 2 1 37) (0, 0, 0) (16, 16, 1));
     Moved (view_texels (iv 2 2 1 37) (0, 0, 0) (32, 32, 1)) (view_texels (iv 1 1 1 37) (0, 0, 0) (32, 32, 1))] /\
  length (rc_implicit (fst (runImplicit off2 waiting 1 (iv 1 1 1 37)))) = 1%nat /\
  (let c := fst (runImplicit off2 waiting 1 (iv 1 1 1 37)) in effects (snd (runImplicit off2 c 1 (iv 1 1 1 37))) = [Cleared true 1 (v_range (iv 1 1 1 37))]) /\
  effects (snd (runImplicit off2 (set_implicit new_rctx [(1, iv 6 6 6 126, AClear [iv 6 6 6 126] L_UNDEFINED)]) 0 (iv 6 6 6 126))) = [Cleared false 6 (v_range (iv 6 6 6 126))] /\
  depth_or_stencil 126 /\ view_ok (iv 1 1 1 37).
Proof.
  assert (H3 : view_for [iv 3 3 1 37] 1 (iv 3 3 1 37)) by constructor.
  assert (H1 : view_for [iv 5 5 1 126; iv 1 1 1 37] 1 (iv 1 1 1 37)) by (apply view_each; [discriminate|reflexivity]).
  split; [intros p w a I; cbn in I; destruct I as [I|[I|[I|[I|[]]]]]; injection I as _ _ <-; cbn; repeat split; eexists; eassumption|].
  split; [vm_compute; reflexivity|]. split; [vm_compute; reflexivity|]. split; [vm_compute; reflexivity|]. split; [vm_compute; reflexivity|].
  split; [unfold depth_or_stencil; lia|]. split; [split; cbn; unfold valid_range; cbn; lia|discriminate].
Qed.
(* An image array is not copied whole: the copy of a view of six layers leaves five of them as they were. *)
Theorem C115_layers_refuted : exists e c v pass src dst w h final,
  waiting_first v (rc_implicit c) pass (ACopy src dst w h final) [] /\ e_enabled e pass = false /\ view_ok src /\ view_ok dst /\
  r_layers (v_range src) = 6 /\ r_layers (v_range dst) = 6 /\
  effects (snd (runImplicit e c 0 v)) = [Moved (Texels (i_id (v_image src)) 1 1 2 1 (0, 0, 0) (w, h, 1)) (Texels (i_id (v_image dst)) 1 1 2 1 (0, 0, 0) (w, h, 1))].
Proof.
  exists off2, (set_implicit new_rctx [(1, iv 1 1 6 37, ACopy (iv 2 2 6 37) (iv 1 1 6 37) 32 32 L_SHADER_READ_ONLY)]), (iv 1 1 6 37), 1, (iv 2 2 6 37), (iv 1 1 6 37), 32, 32, L_SHADER_READ_ONLY.
  split; [exists [], (iv 1 1 6 37), []; repeat split; intros ? ? ? []|].
  repeat split; try discriminate; try (vm_compute; reflexivity); cbn; unfold valid_range; cbn; lia.
Qed.
Print Assumptions C115_layers_refuted.
Theorem C115_blit_offset_refuted : exists e c v pass src dst so ss doff ds,
  waiting_first v (rc_implicit c) pass (ABlit src dst so ss doff ds 0 L_UNDEFINED) [] /\ e_enabled e pass = false /\
  r_layers (v_range src) = 1 /\ r_layers (v_range dst) = 1 /\ view_ok src /\ view_ok dst /\
  forall x, asked_to 0 (ABlit src dst so ss doff ds 0 L_UNDEFINED) x -> effects (snd (runImplicit e c 0 v)) <> [x].
Proof.
  exists off2, (set_implicit new_rctx [(1, iv 1 1 1 37, ABlit (iv 2 2 1 37) (iv 1 1 1 37) (8, 8) (16, 16) (0, 0) (16, 16) 0 L_UNDEFINED)]), (iv 1 1 1 37), 1, (iv 2 2 1 37), (iv 1 1 1 37), (8, 8), (16, 16), (0, 0), (16, 16).
  split; [exists [], (iv 1 1 1 37), []; repeat split; intros ? ? ? []|].
  split; [reflexivity|]. split; [reflexivity|]. split; [reflexivity|].
  split; [split; cbn; unfold valid_range; cbn; [lia|discriminate]|]. split; [split; cbn; unfold valid_range; cbn; [lia|discriminate]|].
  intros x A. inversion A; subst. vm_compute. discriminate.
Qed.
Print Assumptions C115_blit_offset_refuted.
