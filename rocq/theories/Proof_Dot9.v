(* Where the nodes are declared (C75). *)
From Verif Require Import Spec_Dot Proof_Dot Proof_Dot2 Proof_Dot3 Proof_Dot4 Proof_Dot5 Proof_Dot6 Proof_Dot7.
From Coq Require Import Lia.
Local Open Scope N_scope.

Lemma nodes_in_app a : well_formed a -> forall around r, nodes_in around (a ++ r) = (nodes_in around a ++ nodes_in around r)%list.
Proof.
  induction 1 as [|l b Hl _ IH|o i b Ho _ IHi _ IHb]; intros around r; [reflexivity| |].
  - destruct l; try destruct Hl; cbn [app nodes_in]; rewrite IH; reflexivity.
  - cbn [app]. rewrite <- app_assoc. cbn [app].
    destruct o; try destruct Ho; cbn [nodes_in]; rewrite !IHi; cbn [nodes_in tl]; rewrite IHb, app_assoc; reflexivity.
Qed.
Lemma nodes_in_plain l : Forall plain l -> forall around n ar, In (n, ar) (nodes_in around l) -> ar = around /\ In (LNode n) l.
Proof.
  induction 1 as [|x l Hx _ IH]; intros around n ar; [intros []|]. destruct x; try destruct Hx; cbn [nodes_in].
  - intros [E|H]; [injection E as -> ->; split; [reflexivity|left; reflexivity]|]. destruct (IH around n ar H). split; [assumption|right; assumption].
  - intro H. destruct (IH around n ar H). split; [assumption|right; assumption].
Qed.
Section Place.
  Context (nm : names) (cf : config) (s : streams).
  Hypothesis ok : st_ok s.
  Hypothesis Pl : forall k d, In (k, d) s -> Forall plain (sd_lines d).
  Definition outer (g : gpath) : list string := match g with [] => [] | _ :: p => (group_labels nm p ++ [EmptyString])%list end.
  Lemma lines_plain g : Forall plain (st_lines s g).
  Proof. unfold st_lines. destruct (find (fun e => path_eqb (fst e) g) s) as [[k d]|] eqn:E; [|constructor]. apply find_some in E. apply (Pl k d), E. Qed.
  Lemma lines_entry g l : In l (st_lines s g) -> exists d, In (g, d) s /\ In l (sd_lines d).
  Proof.
    unfold st_lines. destruct (find (fun e => path_eqb (fst e) g) s) as [[k d]|] eqn:E; [|intros []]. apply find_some in E. destruct E as [E1 E2]. apply path_eqb_eq in E2. cbn [fst] in E2. subst k.
    intro H. exists d. split; assumption.
  Qed.
  Lemma content_place : cf_groups cf = true -> forall d g global n ar, Forall plain global -> In (n, ar) (nodes_in (outer g) (content nm cf s d g global)) ->
    (exists h, In (LNode n) (st_lines s h) /\ ar = (group_labels nm h ++ [EmptyString])%list) \/ In (LNode n) global.
  Proof.
    intro Cg. induction d as [|d IH]; intros g global n ar Hg H; [destruct H|]. cbn [content] in H.
    assert (Kids : well_formed (flat_map (fun c => content nm cf s d c []) (st_children s g))).
    { clear H. induction (st_children s g) as [|c cs IHc]; [constructor|]. cbn [flat_map]. apply wf_app; [apply content_wf; [exact Pl|constructor]|exact IHc]. }
    assert (Hk : forall cs, (forall c, In c cs -> In c (st_children s g)) -> In (n, ar) (nodes_in (group_labels nm g ++ [EmptyString]) (flat_map (fun c => content nm cf s d c []) cs)) ->
      exists h, In (LNode n) (st_lines s h) /\ ar = (group_labels nm h ++ [EmptyString])%list).
    { clear H. induction cs as [|c cs IHc]; intros Hc H; [destruct H|]. cbn [flat_map] in H. rewrite nodes_in_app in H by (apply content_wf; [exact Pl|constructor]).
      apply in_app_or in H. destruct H as [H|H]; [|apply IHc; [intros c' Hc'; apply Hc; right; exact Hc'|exact H]].
      pose proof (proj1 (children_iff s g c) (Hc c (or_introl eq_refl))) as [_ [x ->]].
      destruct (IH (x :: g) [] n ar (Forall_nil _) H) as [Hx|[]]. exact Hx. }
    assert (E : nodes_in (outer g) (header nm cf g ++ flat_map (fun c => content nm cf s d c []) (st_children s g) ++ st_lines s g ++ footer cf g global) =
                (nodes_in (group_labels nm g ++ [EmptyString]) (flat_map (fun c => content nm cf s d c []) (st_children s g)) ++
                nodes_in (group_labels nm g ++ [EmptyString]) (st_lines s g) ++ nodes_in (group_labels nm g ++ [EmptyString]) (footer cf g global))%list).
    { rewrite <- (nodes_in_app (st_lines s g) (wf_plain _ (lines_plain g))). rewrite <- (nodes_in_app _ Kids).
      destruct g as [|x g]; cbn [header outer group_labels app nodes_in]; [reflexivity|]. rewrite Cg. cbn [app nodes_in]. reflexivity. }
    rewrite E in H. apply in_app_or in H. destruct H as [H|H]; [left; exact (Hk _ (fun c Hc => Hc) H)|]. apply in_app_or in H. destruct H as [H|H].
    - apply (nodes_in_plain _ (lines_plain g)) in H. destruct H as [-> H]. left. exists g. split; [exact H|reflexivity].
    - destruct g as [|x g]; cbn [footer] in H.
      + rewrite nodes_in_app in H by (apply wf_plain, Hg). apply in_app_or in H. destruct H as [H|[]]. apply (nodes_in_plain _ Hg) in H. right. apply H.
      + rewrite Cg in H. destruct H.
  Qed.
End Place.
Lemma has_declared n l : In (LNode n) l -> (0 < declared n l)%nat.
Proof.
  intro H. unfold declared. assert (K : In (LNode n) (filter (fun l => match l with LNode m => String.eqb m n | _ => false end) l)) by (apply filter_In; split; [exact H|apply String.eqb_refl]).
  destruct (filter _ l); [destruct K|cbn; lia].
Qed.
Theorem place_ok nm w cf fuel text : compiled_order w -> ids_ok w -> well_declared w -> group_names_ok nm (map d_id w) -> pass_names_ok nm (map d_id w) ->
  (List.length w <= fuel)%nat -> displayPasses_to nm fuel cf (compileGraph w) = Some text ->
  forall p around, In p w -> In (nm_pass nm (d_id p), around) (nodes_in [] text) ->
    (cf_split cf = true -> around = [nm_group nm (nm_of nm (d_id p))]) /\
    (cf_split cf = false -> cf_groups cf = true -> around = (group_labels nm (nm_of nm (d_id p)) ++ [EmptyString])%list).
Proof.
  intros Ho Hi Hd Hg Hp Hf T p around Hin H. destruct (streams_ok nm w fuel Ho Hi Hd Hf) as (es & st & V & P & D).
  unfold displayPasses_to, displayPasses in T. rewrite V in T. cbn [option_map] in T.
  pose proof (dr_base _ _ _ _ _ D) as B. pose proof (ba_ok _ _ _ _ B) as O. pose proof (base_plain _ _ _ _ B) as Pl. pose proof (names_inj _ _ _ _ B Hg) as Inj.
  assert (Only : forall h, In (LNode (nm_pass nm (d_id p))) (st_lines st h) -> h = nm_of nm (d_id p)).
  { intros h Hh. apply lines_entry in Hh. destruct Hh as (d & K & L). apply has_declared in L. rewrite (dr_nodes _ _ _ _ _ D h d K) in L.
    destruct (has_name (nm_pass nm (d_id p)) (sd_nodes d)) eqn:E; [|lia]. exact (proj1 (dr_only _ _ _ _ _ D Hp h d (d_id p) K (in_map d_id w p Hin) E)). }
  destruct (cf_split cf) eqn:Sp; injection T as <-; (split; [intro S0|intros S0 Cg]); try discriminate.
  - pose proof (write_split nm cf st O Inj Sp (S (max_depth st)) [] [] [] (so_root st O) (fun _ _ _ H => H)) as Q. rewrite app_nil_r in Q.
    set (m := st_write nm (S (max_depth st)) cf st [] [] []) in *.
    assert (K : forall e, In e m -> exists g, g <> [] /\ snd e = split_text nm st g).
    { intros e He. apply (Permutation_in _ Q) in He. unfold split_texts in He. apply in_map_iff in He. destruct He as (k & <- & Hk). apply filter_In in Hk. exists k. split; [|reflexivity]. destruct k; [destruct Hk; discriminate|discriminate]. }
    assert (L : forall l, incl l m -> In (nm_pass nm (d_id p), around) (nodes_in [] (List.concat (map snd l))) -> around = [nm_group nm (nm_of nm (d_id p))]).
    { clear H. induction l as [|e l IH]; intros Hl H; [destruct H|]. cbn [map List.concat] in H. destruct (K e (Hl e (or_introl eq_refl))) as (g & Hn & Eg).
      assert (Wf : well_formed (snd e)) by (rewrite Eg; apply wf_wrap; [exact I|apply wf_plain, lines_plain, Pl]).
      rewrite (nodes_in_app _ Wf) in H. apply in_app_or in H. destruct H as [H|H]; [|apply IH; [intros x Hx; apply Hl; right; exact Hx|exact H]].
      rewrite Eg in H. unfold split_text in H. cbn [nodes_in] in H. rewrite (nodes_in_app _ (wf_plain _ (lines_plain st Pl g))) in H. apply in_app_or in H. destruct H as [H|[]].
      apply (nodes_in_plain _ (lines_plain st Pl g)) in H. destruct H as [-> H]. rewrite <- (Only g H). destruct g; [congruence|reflexivity]. }
    apply (L (filter (fun e => negb (String.eqb (fst e) EmptyString)) m)); [|exact H]. intros e He. apply filter_In in He. apply He.
  - destruct (write_whole nm cf st O Inj Sp (S (max_depth st)) [] [] [] (so_root st O) (NoDup_nil _) (fun _ _ _ => eq_refl)) as (_ & E & _).
    change (group_name nm []) with EmptyString in E. 
    destruct (content_place nm cf st Pl Cg (S (max_depth st)) [] [] _ _ (Forall_nil _) (eq_ind _ (fun t => In (nm_pass nm (d_id p), around) (nodes_in [] t)) H _ E)) as [(h & H1 & ->)|[]]. rewrite (Only h H1). reflexivity.
Qed.
