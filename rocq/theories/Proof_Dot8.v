(* The drawing of the transitions (C76). *)
From Verif Require Import Spec_Dot Proof_Dot Proof_Dot2 Proof_Dot3 Proof_Dot4 Proof_Dot5 Proof_Dot7.
From Coq Require Import Lia.
Local Open Scope N_scope.

Definition pass_in (ps : list N) (a : attach) : Prop := forall p, at_pass a = Some p -> In p ps.
Definition placed (nm : names) (s : streams) (a : attach) : Prop := In (end_group nm a) (keys s).
Lemma attach_pass_ok nm ps s E a : pass_in ps a -> base nm ps s E ->
  base nm ps (displayAttachPass nm a s) E /\ placed nm (displayAttachPass nm a s) a /\ incl (keys s) (keys (displayAttachPass nm a s)).
Proof.
  intros Ha B. pose proof (ba_ok _ _ _ _ B) as O. unfold displayAttachPass, placed, end_group, pass_in in *. destruct (at_pass a) as [p|].
  - split; [apply base_pass; [apply own_group, Ha; reflexivity|exact B]|]. apply pass_keys, O.
  - split; [apply base_pass; [left; reflexivity|exact B]|]. apply pass_keys, O.
Qed.
Lemma attach_fold nm ps {D} (l : list (transition D)) : forall s E, (forall t, In t l -> pass_in ps (t_out t) /\ pass_in ps (t_in t)) -> base nm ps s E ->
  let s' := fold_left (fun s t => displayAttachPass nm (t_in t) (displayAttachPass nm (t_out t) s)) l s in
  base nm ps s' E /\ incl (keys s) (keys s') /\ forall t, In t l -> placed nm s' (t_out t) /\ placed nm s' (t_in t).
Proof.
  induction l as [|t l IH]; intros s E Ht B; cbv zeta; [split; [exact B|split; [intros x H; exact H|intros t []]]|]. cbn [fold_left].
  destruct (Ht t (or_introl eq_refl)) as [H1 H2]. destruct (attach_pass_ok nm ps s E (t_out t) H1 B) as (B1 & P1 & I1). destruct (attach_pass_ok nm ps _ E (t_in t) H2 B1) as (B2 & P2 & I2).
  destruct (IH _ E (fun t' H => Ht t' (or_intror H)) B2) as (B3 & I3 & P3). split; [exact B3|]. split; [intros x H; apply I3, I2, I1, H|].
  intros t' [<-|H]; [split; [apply I3, I2, P1|apply I3, P2]|apply P3, H].
Qed.
Record showing (nm : names) (ps : list N) (x : streams * list line) (X : list (string * string * string)) : Prop := {
  sh_base : exists E, base nm ps (fst x) E /\ Permutation (E ++ arrows (snd x)) X; sh_plain : Forall plain (snd x) }.
Lemma update_same g f s : (forall d, sd_lines (f d) = sd_lines d) -> all_arrows (st_update g f s) = all_arrows s.
Proof.
  intro H. unfold all_arrows, st_update. induction s as [|[k d] s IH]; [reflexivity|]. cbn [map flat_map fst]. rewrite IH. f_equal. destruct (path_eqb k g); cbn [snd]; [rewrite H|]; reflexivity.
Qed.
Lemma transition_edge_ok nm ps {D} (label : D -> string) (t : transition D) x X : showing nm ps x X -> placed nm (fst x) (t_out t) ->
  showing nm ps (displayTransitionEdge nm (t_out t) (t_in t) (label (t_data t)) x) (X ++ shown nm label t) /\
  keys (fst (displayTransitionEdge nm (t_out t) (t_in t) (label (t_data t)) x)) = keys (fst x).
Proof.
  intros [[E [B P]] Pl] Ho. destruct x as [s global]. cbn [fst snd] in *. unfold displayTransitionEdge.
  set (name := long_box nm (t_out t) (t_in t)). set (from := end_name nm (t_out t) "ExternalSource"). set (to := end_name nm (t_in t) "ExternalDestination"). set (lb := label (t_data t)).
  assert (Sh : shown nm label t = [(from, name, lb); (name, to, lb)]) by reflexivity. rewrite Sh.
  assert (S : step (fun d => displayEdge name to lb (displayEdge from name lb (displayNode name d))) [(from, name, lb); (name, to, lb)] (fun _ => True)).
  { apply (step_comp (fun d => displayEdge from name lb (displayNode name d)) (displayEdge name to lb) [(from, name, lb)] [(name, to, lb)]); [|apply step_edge].
    apply (step_comp (displayNode name) (displayEdge from name lb) [] [(from, name, lb)]); [|apply step_edge]. apply (step_weaken _ _ (eq name)); [auto|apply step_node]. }
  pose proof (edge_group_key s (end_group nm (t_out t)) (end_group nm (t_in t)) (ba_ok _ _ _ _ B) Ho) as Kg.
  destruct (edge_group (end_group nm (t_out t)) (end_group nm (t_in t))) as [|x g] eqn:Eg.
  - cbn [fst snd]. rewrite keys_update. split; [|reflexivity].
    destruct (S {| sd_nodes := match find (fun e => path_eqb (fst e) []) s with Some e => sd_nodes (snd e) | None => [] end; sd_lines := [] |}) as ((new & N1 & N2 & N3) & _). cbn [sd_lines app] in N1.
    constructor; cbn [fst snd]; rewrite N1; [|apply Forall_app; split; assumption]. exists E. split.
    + destruct B as [B1 B2 B3 B4]. constructor.
      * apply update_ok, B1.
      * rewrite keys_update. exact B2.
      * rewrite update_same; [exact B3|reflexivity].
      * intros k d K. destruct (in_update _ _ _ _ _ K) as (d0 & K0 & ->). destruct (path_eqb k []); apply (B4 k d0 K0).
    + rewrite arrows_app, N2, app_assoc. apply Permutation_app_tail, P.
  - cbn [fst snd]. rewrite keys_update. split; [|reflexivity]. constructor; cbn [fst snd]; [|exact Pl]. eexists. split; [exact (base_update nm ps s E (x :: g) _ _ _ B Kg S)|].
    rewrite <- app_assoc, (Permutation_app_comm _ (arrows global)), app_assoc. apply Permutation_app_tail, P.
Qed.
Lemma transition_fold nm ps {D} (label : D -> string) (l : list (transition D)) : forall x X, showing nm ps x X -> (forall t, In t l -> placed nm (fst x) (t_out t)) ->
  let x' := fold_left (fun x t => displayTransitionEdge nm (t_out t) (t_in t) (label (t_data t)) x) l x in
  showing nm ps x' (X ++ flat_map (shown nm label) l) /\ keys (fst x') = keys (fst x).
Proof.
  induction l as [|t l IH]; intros x X S Hp; cbv zeta; [cbn [fold_left flat_map]; rewrite app_nil_r; split; [exact S|reflexivity]|]. cbn [fold_left flat_map].
  destruct (transition_edge_ok nm ps label t x X S (Hp t (or_introl eq_refl))) as [S1 K1].
  destruct (IH _ _ S1) as [S2 K2]; [intros t' Ht'; unfold placed; rewrite K1; apply Hp; right; exact Ht'|]. rewrite app_assoc. split; [exact S2|congruence].
Qed.
Lemma transitions_ok nm ps t : (forall x, In x (as_views t) -> pass_in ps (t_out x) /\ pass_in ps (t_in x)) -> (forall x, In x (as_buffers t) -> pass_in ps (t_out x) /\ pass_in ps (t_in x)) ->
  showing nm ps (transition_streams nm t) (shown_all nm t).
Proof.
  intros Hv Hb. unfold transition_streams.
  destruct (attach_fold nm ps (as_views t) first_streams [] Hv (base_first nm ps)) as (B1 & I1 & P1).
  destruct (attach_fold nm ps (as_buffers t) _ [] Hb B1) as (B2 & I2 & P2). cbv zeta in *.
  set (s2 := fold_left _ (as_buffers t) _) in *.
  assert (S0 : showing nm ps (s2, []) []) by (constructor; [exists []; split; [exact B2|reflexivity]|constructor]).
  destruct (transition_fold nm ps (nm_view nm) (as_views t) (s2, []) [] S0) as [S1 K1]; [intros x Hx; apply I2, (P1 x Hx)|]. cbv zeta in *.
  set (x1 := fold_left _ (as_views t) (s2, [])) in *.
  destruct (transition_fold nm ps (nm_buffer nm) (as_buffers t) x1 _ S1) as [S2 K2]; [intros x Hx; unfold placed; rewrite K1; apply (P2 x Hx)|]. exact S2.
Qed.
Lemma transitions_text nm ps cf t : (forall x, In x (as_views t) -> pass_in ps (t_out x) /\ pass_in ps (t_in x)) -> (forall x, In x (as_buffers t) -> pass_in ps (t_out x) /\ pass_in ps (t_in x)) ->
  group_names_ok nm ps -> cf_split cf = false -> let text := dget EmptyString (displayTransitions nm cf t) in one_digraph text /\ Permutation (arrows text) (shown_all nm t).
Proof.
  intros Hv Hb Hn Sp. destruct (transitions_ok nm ps t Hv Hb) as [[E [B P]] Pl]. unfold displayTransitions. destruct (transition_streams nm t) as [s global]. cbn [fst snd] in *.
  destruct (whole_text nm ps cf s E global B Hn Sp Pl) as [W Q]. cbv zeta in *. split; [exact W|]. rewrite <- arrows_plain, (arrows_perm _ _ Q), arrows_app, arrows_flat.
  rewrite <- P. apply Permutation_app_tail. exact (ba_arrows _ _ _ _ B).
Qed.
