(* Proofs about the contents of images. *)
From Verif Require Import Spec_Contents.
Local Open Scope N_scope.

Lemma preserved_unchanged v c layer mip s : preserves v c -> in_range (v_range v) layer mip -> ~ may_change c (i_id (v_image v)) layer mip s.
Proof.
  intros P R. assert (E : forall i r, elsewhere i r v -> i = i_id (v_image v) -> in_range r layer mip -> False) by (intros i r [H|H] E I; [contradiction|apply (H layer mip I R)]).
  destruct c; cbn [may_change preserves] in *; try tauto; try (intros [H1 H2]; eapply E; eassumption).
  - intros [[H1 H2] H3]. destruct P as [P|P]; [eapply E; eassumption|contradiction].
  - intros (w & initial & final & ops & Hin & [H1 H2] & H3). destruct (P w initial final ops Hin) as [Q|[Q1 [Q2 Q3]]]; [eapply E; eassumption|].
    destruct s; destruct H3 as [H3 [H4|H4]]; tauto.
  - intros (w & initial & final & ops & Hin & [H1 H2] & H3). destruct (P w initial final ops Hin) as [Q|[Q2 Q3]]; [eapply E; eassumption|].
    destruct s; destruct H3 as [H3 H4]; tauto.
Qed.
Lemma preserved_contents v l : forall k k', Forall (preserves v) l -> contents_after k l k' -> same_contents v k k'.
Proof.
  induction l as [|c l IH]; intros k k' P H; cbn [contents_after] in H.
  - subst. intros layer mip s _. reflexivity.
  - destruct H as (k1 & H1 & H2). inversion P as [|? ? P1 P2]; subst. intros layer mip s R. rewrite (IH k1 k' P2 H2 layer mip s R). apply H1. apply preserved_unchanged; assumption.
Qed.
Lemma contents_id k l : contents_after k l k.
Proof. induction l as [|c l IH]; [reflexivity|]. exists k. split; [reflexivity|exact IH]. Qed.

(* A command that changes nothing in a view preserves it. *)
Lemma elsewhere_dec im r v : elsewhere im r v \/ exists layer mip, im = i_id (v_image v) /\ in_range r layer mip /\ in_range (v_range v) layer mip.
Proof.
  unfold elsewhere, in_range. destruct (N.eq_dec im (i_id (v_image v))) as [E|E]; [|left; left; exact E]. set (w := v_range v).
  set (la := N.max (r_layer r) (r_layer w)). set (mi := N.max (r_mip r) (r_mip w)).
  destruct (N.ltb_spec la (N.min (r_layer r + r_layers r) (r_layer w + r_layers w))) as [H1|H1];
    [destruct (N.ltb_spec mi (N.min (r_mip r + r_levels r) (r_mip w + r_levels w))) as [H2|H2]|].
  - right. exists la, mi. subst la mi. lia.
  - left. right. intros layer mip. subst la mi. lia.
  - left. right. intros layer mip. subst la mi. lia.
Qed.
Lemma unchanged_preserved v c : (forall layer mip s, in_range (v_range v) layer mip -> ~ may_change c (i_id (v_image v)) layer mip s) -> preserves v c.
Proof.
  intro H. assert (E : forall i r, (forall layer mip, in_range (v_range v) layer mip -> ~ (i = i_id (v_image v) /\ in_range r layer mip)) -> elsewhere i r v).
  { intros i r X. destruct (elsewhere_dec i r v) as [?|(layer & mip & E & R1 & R2)]; [assumption|]. exfalso. apply (X layer mip); auto. }
  destruct c; cbn [may_change preserves] in *; try exact I; try (apply E; intros layer mip R; apply (H layer mip true R)).
  - destruct (elsewhere_dec image r v) as [?|(layer & mip & E1 & R1 & R2)]; [left; assumption|right]. intro U. apply (H layer mip true R2). auto.
  - intros w initial final ops Hin. destruct (elsewhere_dec (i_id (v_image w)) (v_range w) v) as [?|(layer & mip & E1 & R1 & R2)]; [left; assumption|right].
    assert (X : forall s : bool, (if s then has_stencil w /\ (initial = L_UNDEFINED \/ to_sload ops <> LO_LOAD) else has_main w /\ (initial = L_UNDEFINED \/ to_load ops <> LO_LOAD)) -> False).
    { intros s X. apply (H layer mip s R2). exists w, initial, final, ops. auto. }
    split; [|split].
    + intro U. destruct (N.eq_dec (v_format w) F_S8) as [Z|Z]; [apply (X true)|apply (X false)]; (split; [|left; exact U]); [unfold has_stencil; rewrite Z; left; reflexivity|exact Z].
    + intro M. destruct (N.eq_dec (to_load ops) LO_LOAD) as [Z|Z]; [exact Z|]. exfalso. apply (X false). auto.
    + intro M. destruct (N.eq_dec (to_sload ops) LO_LOAD) as [Z|Z]; [exact Z|]. exfalso. apply (X true). auto.
  - intros w initial final ops Hin. destruct (elsewhere_dec (i_id (v_image w)) (v_range w) v) as [?|(layer & mip & E1 & R1 & R2)]; [left; assumption|right].
    assert (X : forall s : bool, (if s then has_stencil w /\ to_sstore ops <> SO_STORE else has_main w /\ to_store ops <> SO_STORE) -> False).
    { intros s X. apply (H layer mip s R2). exists w, initial, final, ops. auto. }
    split; intro M.
    + destruct (N.eq_dec (to_store ops) SO_STORE) as [Z|Z]; [exact Z|]. exfalso. apply (X false). auto.
    + destruct (N.eq_dec (to_sstore ops) SO_STORE) as [Z|Z]; [exact Z|]. exfalso. apply (X true). auto.
Qed.
