From Verif Require Import Spec_Inout Proof_Layout Proof_Record Proof_Run2 Proof_Run3 Proof_Device4.
From Coq Require Import Lia PeanoNat.
Local Open Scope N_scope.

Definition store (out : bool) (g : rgraph) : handler := if out then g_outputs g else g_inputs g.
Lemma record_store out e g deps passes : store out (fst (fst (record_graph e g deps passes))) = store out g.
Proof. unfold record_graph. destruct (record_loop _ _ _ _) as [[c l] tr]. destruct out; reflexivity. Qed.
Lemma step_store out g x : store out (graph_step g x) =
  match declares out x with Some (im, vt, r, s) => setLayoutState (store out g) im vt r s | None => store out g end.
Proof. destruct out, x; try reflexivity; apply (record_store _ e g deps (passes g)). Qed.

Lemma set_htracked h im vt r s k layer mip : valid_range (getVirtualRange im vt r) ->
  htracked (setLayoutState h im vt r s) k layer mip =
  if andb (N.eqb (i_id im) k) (in_rangeb (getVirtualRange im vt r) layer mip) then Some s else htracked h k layer mip.
Proof. intro H. exact (set_one_tracked h (mkView 0 im 0 vt 0 r [], s) k layer mip H). Qed.
Lemma speaks_b im vt r s k layer mip : speaks_of (im, vt, r, s) k layer mip <-> andb (N.eqb (i_id im) k) (in_rangeb (getVirtualRange im vt r) layer mip) = true.
Proof. unfold speaks_of. rewrite andb_true_iff, N.eqb_eq, in_rangeb_spec. reflexivity. Qed.

Lemma unspoken out after g k layer mip :
  proper_steps after -> (forall y d, In y after -> declares out y = Some d -> ~ speaks_of d k layer mip) ->
  htracked (store out (fold_left graph_step after g)) k layer mip = htracked (store out g) k layer mip.
Proof.
  revert g. induction after as [|x l IH]; intros g Hp H; [reflexivity|]. cbn [fold_left]. rewrite IH.
  - rewrite step_store. destruct (declares out x) as [[[[im vt] r] s]|] eqn:E; [|reflexivity].
    rewrite set_htracked by (eapply Hp; [left; reflexivity|exact E]). destruct (andb _ _) eqn:B; [|reflexivity].
    exfalso. apply (H x _ (or_introl eq_refl) E). apply speaks_b, B.
  - intros y o im vt r s Hy. apply (Hp y o im vt r s (or_intror Hy)).
  - intros y d Hy. apply (H y d (or_intror Hy)).
Qed.
Lemma said_tracked out l k layer mip s : proper_steps l -> last_said out l k layer mip s -> htracked (store out (graph_steps l)) k layer mip = Some s.
Proof.
  intros Hp (b & x & a & im & vt & r & -> & E & Hs & Ha). unfold graph_steps. rewrite fold_left_app. cbn [fold_left].
  rewrite (unspoken out a); [| |exact Ha].
  - rewrite step_store, E, set_htracked; [rewrite (proj1 (speaks_b im vt r s k layer mip) Hs); reflexivity|].
    apply (Hp x out im vt r s); [apply in_or_app; right; left; reflexivity|exact E].
  - intros y o im' vt' r' s' Hy. apply (Hp y o im' vt' r' s'). apply in_or_app. right. right. exact Hy.
Qed.
Lemma never_tracked out l k layer mip : proper_steps l -> never_said out l k layer mip -> htracked (store out (graph_steps l)) k layer mip = None.
Proof. intros Hp H. unfold graph_steps. rewrite (unspoken out l); [destruct out; reflexivity|exact Hp|exact H]. Qed.

Lemma asked_store out g v : asked out g v = getLayoutState (store out g) (v_image v) (v_type v) (v_range v).
Proof. destruct out; reflexivity. Qed.
Lemma tracked_get h v s : valid_range (getVirtualRange (v_image v) (v_type v) (v_range v)) ->
  (forall layer mip, part_of v layer mip -> htracked h (i_id (v_image v)) layer mip = Some s) ->
  getLayoutState h (v_image v) (v_type v) (v_range v) = s.
Proof.
  intros Hv H. unfold getLayoutState. unfold htracked in H. destruct (mfind (i_id (v_image v)) h) as [m|] eqn:E.
  - apply get_uniform; assumption.
  - specialize (H _ _ (valid_in _ Hv)). discriminate H.
Qed.
Lemma untracked_get h v : valid_range (getVirtualRange (v_image v) (v_type v) (v_range v)) ->
  (forall layer mip, part_of v layer mip -> htracked h (i_id (v_image v)) layer mip = None) ->
  let s := getLayoutState h (v_image v) (v_type v) (v_range v) in ls_layout s = L_UNDEFINED /\ ps_access (ls_state s) = 0.
Proof.
  intros Hv H. unfold getLayoutState. unfold htracked in H. destruct (mfind (i_id (v_image v)) h) as [m|] eqn:E; [|split; reflexivity].
  pose proof (get_is_summary m _ (valid_nowrap _ Hv)) as G.
  replace (tracked_list m (getVirtualRange (v_image v) (v_type v) (v_range v))) with (@nil lstate) in G.
  - cbn in G. rewrite G. split; reflexivity.
  - unfold tracked_list. symmetry. assert (A : forall l, (forall x, In x l -> tracked m (fst x) (snd x) = None) ->
      flat_map (fun x => match tracked m (fst x) (snd x) with Some st => [st] | None => [] end) l = []).
    { induction l as [|x l IH]; intro K; [reflexivity|]. cbn [flat_map]. rewrite (K x (or_introl eq_refl)). apply IH. intros y Hy. apply K. right. exact Hy. }
    apply A. intros [a b] Hx. apply in_subresources in Hx. apply H, Hx.
Qed.

(* final states *)
Lemma final_resolved g v i : v_source v = [] \/ (i < length (v_source v))%nat -> (forall w, In w (v_source v) -> v_source w = []) ->
  let w := resolveView v i in final_state g v i = Some (final_range g (v_image w) (v_type w) (v_range w)).
Proof.
  destruct v as [id im fl vt fm r src]. cbn [v_source]. intros H Hs. unfold resolveView. cbn [v_source]. destruct src as [|x src]; [reflexivity|].
  destruct H as [H|H]; [discriminate H|].
  assert (G : forall l j, (j < length l)%nat -> (forall w, In w l -> v_source w = []) ->
    (fix pick (l : list view) (i : nat) {struct l} : option lstate :=
         match l, i with [], _ => None | w :: _, O => final_state g w 0 | _ :: rest, S i => pick rest i end) l j =
    Some (final_range g (v_image (nth j l dummy_view)) (v_type (nth j l dummy_view)) (v_range (nth j l dummy_view)))).
  { induction l as [|y l IH]; intros j Hj Hl; [cbn in Hj; lia|]. destruct j as [|j].
    - cbn [nth]. specialize (Hl y (or_introl eq_refl)). destruct y as [id' im' fl' vt' fm' r' src']. cbn in Hl. subst src'. reflexivity.
    - cbn [nth]. apply IH; [cbn in Hj; lia|]. intros w Hw. apply Hl. right. exact Hw. }
  exact (G (x :: src) i H Hs).
Qed.
