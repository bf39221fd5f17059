(* C74: order of the recorded commands. *)
From Verif Require Import Model_Order Spec_Sort Proof_Sort Props_Sort Spec_Record Props_Record.
Local Open Scope N_scope.

(* The commands a pass records, given the state of the recording when its turn comes. *)
Definition pass_commands (e : env) (g : rgraph) (p : rpass) (c : rctx) : list cmd := snd (recordInto e g p c).

Lemma loop_concat e g passes : forall c, exists cs, length cs = length passes /\
  snd (fst (record_loop e g passes c)) = concat (map (fun x => pass_commands e g (fst x) (snd x)) (combine passes cs)).
Proof.
  induction passes as [|p passes IH]; intro c; [exists []; split; reflexivity|]. cbn [record_loop].
  destruct (recordInto e g p (prepare e g p passes c)) as [c2 l1] eqn:E. destruct (IH c2) as (cs & L & H).
  destruct (record_loop e g passes c2) as [[c3 l2] tr]. cbn [fst snd] in *. exists (prepare e g p passes c :: cs). split; [cbn; congruence|].
  cbn [combine map concat]. unfold pass_commands at 1. cbn [fst snd]. rewrite E, H. reflexivity.
Qed.
(** C74: a recording of a compiled graph is the commands of each registered pass exactly once, and those of a pass come after those of
    all the passes it depends on, directly or not. *)
Theorem C74_recorded_in_dependency_order : forall create e g deps ps cmds,
  well_registered ps -> closed ps -> acyclic ps -> compile_and_record create e g deps ps = Ok cmds ->
  exists order cs, Permutation ps order /\ length cs = length order /\
    cmds = concat (map (fun x => pass_commands e g (create (fst x)) (snd x)) (combine order cs)) /\
    (forall p q, clos_trans _ (needs ps) p q -> before order q p).
Proof.
  intros create e g deps ps cmds W C A H. unfold compile_and_record in H. destruct (compile_order ps) as [order| | |] eqn:E; try discriminate. injection H as <-.
  unfold record_graph, runnable_passes. destruct (loop_concat e g (map create order) (start_context e deps (map create order))) as (cs & L & H).
  destruct (record_loop e g (map create order) (start_context e deps (map create order))) as [[c l] tr]. cbn [fst snd] in *. rewrite map_length in L.
  exists order, cs. split; [apply compile_perm; assumption|]. split; [exact L|]. split.
  - rewrite H. clear. f_equal. revert cs. induction order as [|x order IH]; intros [|y cs]; cbn; try reflexivity. f_equal. apply IH.
  - pose proof (compile_topological ps order W C A E) as T.
    assert (Nd : NoDup order).
    { apply (Permutation_NoDup (compile_perm ps order W E)). destruct W as [Wa _ _]. revert Wa. clear. induction ps as [|x ps IH]; intro H; constructor; inversion H; subst.
      - intro Hin. apply H2. apply (in_map (fun p => pr_addr (fp_ref p))), Hin.
      - apply IH. assumption. }
    intros p q H0. induction H0 as [p q Hpq|p q r H1 IH1 H2 IH2]; [apply T, Hpq|].
    (* r before q before p *)
    clear - IH1 IH2 Nd. destruct IH2 as (a1 & a2 & a3 & Ea). destruct IH1 as (b1 & b2 & b3 & Eb).
    assert (S : forall (l1 l2 m1 m2 : list fpass) x, NoDup (l1 ++ x :: l2) -> l1 ++ x :: l2 = m1 ++ x :: m2 -> l1 = m1 /\ l2 = m2).
    { clear. induction l1 as [|y l1 IH]; intros l2 [|z m1] m2 x N E; cbn in *.
      - injection E as ->. auto.
      - injection E as -> E. exfalso. inversion N as [|? ? H1 _]. apply H1. rewrite E. apply in_or_app. right. left. reflexivity.
      - injection E as -> E. exfalso. inversion N as [|? ? H1 _]. apply H1. apply in_or_app. right. left. reflexivity.
      - injection E as -> E. inversion N as [|? ? _ H2]. destruct (IH l2 m1 m2 x H2 E). split; congruence. }
    assert (Ea' : order = (a1 ++ r :: a2) ++ q :: a3) by (rewrite Ea, <- app_assoc; reflexivity).
    destruct (S (a1 ++ r :: a2) a3 b1 (b2 ++ p :: b3) q) as [_ X]; [rewrite <- Ea'; exact Nd|rewrite <- Ea'; exact Eb|].
    exists a1, (a2 ++ q :: b2), b3. rewrite Ea, X, <- app_assoc. reflexivity.
Qed.
Print Assumptions C74_recorded_in_dependency_order.
(* And such graphs always compile: C03. *)
Theorem C74_acyclic_graphs_record : forall create e g deps ps,
  well_registered ps -> ps <> [] -> closed ps -> acyclic ps -> exists cmds, compile_and_record create e g deps ps = Ok cmds.
Proof.
  intros create e g deps ps W N C A. destruct (compile_complete ps W N C A) as [l E]. unfold compile_and_record. rewrite E. eauto.
Qed.
Print Assumptions C74_acyclic_graphs_record.
(* A diamond, with a pass disabled: its neighbours are still in order. *)
Definition user_pass (f : fpass) : rpass := marker_pass (pr_id (fp_ref f)) [] [] false.
Example C74_applies :
  compile_and_record user_pass {| e_separate := false; e_enabled := fun n => negb (N.eqb n 3); e_action := fun t c _ => (c, []) |} empty_graph []
    [mk 4 [2; 3]; mk 2 [1]; mk 3 [1]; mk 1 []] =
  Ok [CBeginBlock 1; CTimerBegin 1; CUser 1; CTimerEnd 1; CEndBlock; CBeginBlock 2; CTimerBegin 2; CUser 2; CTimerEnd 2; CEndBlock;
      CBeginBlock 4; CTimerBegin 4; CUser 4; CTimerEnd 4; CEndBlock].
Proof. vm_compute. reflexivity. Qed.
