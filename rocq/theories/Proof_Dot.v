(* Proofs about the visit of the graph and the streams of the groups (C75). *)
From Verif Require Import Spec_Dot.
From Coq Require Import Lia.
Local Open Scope N_scope.

Lemma existsb_eqb_in x l : existsb (N.eqb x) l = true <-> In x l.
Proof. rewrite existsb_exists. split; [intros (y & H & E); apply N.eqb_eq in E; subst; assumption|intro H; exists x; split; [exact H|apply N.eqb_refl]]. Qed.
Lemma existsb_eqb_notin x l : existsb (N.eqb x) l = false <-> ~ In x l.
Proof. rewrite <- existsb_eqb_in. destruct (existsb (N.eqb x) l); split; intro H; try reflexivity; try discriminate; exfalso; apply H; reflexivity. Qed.

(* The prints of a list of edges. *)
Definition print_opt (nm : names) (g : graph) (o : option streams) (e : N * N) : option streams :=
  match o with None => None | Some s => printEdge nm g (fst e) (snd e) s end.
Definition printed nm g es st st' : Prop := fold_left (print_opt nm g) es (Some st) = Some st'.
Lemma printed_app nm g e1 e2 a b c : printed nm g e1 a b -> printed nm g e2 b c -> printed nm g (e1 ++ e2) a c.
Proof. unfold printed. intros H1 H2. rewrite fold_left_app, H1. exact H2. Qed.
Definition out_edges (g : graph) (x : N) : list (N * N) := map (pair x) (getNext g (Some x)).

Section Visit.
  Context (nm : names) (g : graph) (ids : list N).
  Definition unvisited (V : list N) : nat := List.length (filter (fun x => negb (existsb (N.eqb x) V)) ids).
  Lemma unvisited_le V V' : incl V V' -> (unvisited V' <= unvisited V)%nat.
  Proof.
    intro H. unfold unvisited. induction ids as [|x l IH]; [apply le_n|]. cbn [filter].
    destruct (existsb (N.eqb x) V) eqn:E; cbn [negb].
    - apply existsb_eqb_in, H, existsb_eqb_in in E. rewrite E. cbn [negb]. exact IH.
    - destruct (existsb (N.eqb x) V'); cbn; lia.
  Qed.
  Lemma unvisited_lt n V : In n ids -> ~ In n V -> (unvisited (n :: V) < unvisited V)%nat.
  Proof.
    unfold unvisited. intros Hi Hn. induction ids as [|x l IH]; [destruct Hi|]. cbn [filter].
    assert (L : (List.length (filter (fun x => negb (existsb (N.eqb x) (n :: V))) l) <= List.length (filter (fun x => negb (existsb (N.eqb x) V)) l))%nat).
    { clear. induction l as [|y l IH]; [apply le_n|]. cbn [filter existsb] in *. destruct (existsb (N.eqb y) V) eqn:E, (N.eqb y n); cbn [orb negb List.length] in *; lia. }
    destruct Hi as [->|Hi].
    - apply existsb_eqb_notin in Hn. rewrite Hn. cbn [existsb] in *. rewrite N.eqb_refl. cbn [negb orb List.length]. lia.
    - specialize (IH Hi). cbn [existsb] in *. destruct (existsb (N.eqb x) V) eqn:E, (N.eqb x n) eqn:E'; cbn in *; lia.
  Qed.
  Hypothesis known : forall a b, In b (getNext g (Some a)) -> In b ids /\ getInputAttaches g b (Some a) <> None.
  Lemma print_ok a b s : In b (getNext g (Some a)) -> exists s', printEdge nm g a b s = Some s'.
  Proof. intro H. destruct (known a b H) as [_ H1]. unfold printEdge. destruct (getInputAttaches g b (Some a)); [eauto|congruence]. Qed.

  Definition new_nodes (T V : list N) : Prop :=
    NoDup T /\ (forall x, In x T -> ~ In x V) /\ incl T ids /\ (forall x y, In x T -> In y (getNext g (Some x)) -> In y (T ++ V)).
  Definition visits (fuel : nat) : Prop := forall n V st, In n ids -> ~ In n V -> (unvisited V <= fuel)%nat ->
    exists T es st', visit nm fuel g n (V, st) = Some ((T ++ V)%list, st') /\ new_nodes T V /\ In n T /\
      (forall x, In x T -> x = n \/ exists y, In x (getNext g (Some y))) /\
      Permutation es (flat_map (out_edges g) T) /\ printed nm g es st st'.
  Definition visit_next (fuel : nat) (n : N) (s : option (list N * streams)) (next : N) : option (list N * streams) :=
    match s with
    | None => None
    | Some (visited, st) =>
        match printEdge nm g n next st with
        | None => None
        | Some st => if existsb (N.eqb next) visited then Some (visited, st) else visit nm fuel g next (visited, st)
        end
    end.
  Lemma visit_unfold fuel n V st : visit nm (S fuel) g n (V, st) = fold_left (visit_next fuel n) (getNext g (Some n)) (Some ((n :: V)%list, st)).
  Proof. reflexivity. Qed.
  Lemma visit_fold fuel n : visits fuel -> forall todo V st, incl todo (getNext g (Some n)) -> (unvisited V <= fuel)%nat ->
    exists T es st', fold_left (visit_next fuel n) todo (Some (V, st)) = Some ((T ++ V)%list, st') /\ new_nodes T V /\
      (forall x, In x T -> exists y, In x (getNext g (Some y))) /\ incl todo (T ++ V) /\
      Permutation es (map (pair n) todo ++ flat_map (out_edges g) T) /\ printed nm g es st st'.
  Proof.
    intro IHf. induction todo as [|m todo IH]; intros V st Hi Hu.
    - exists [], [], st. repeat split; try constructor; try (intros ? ? H; destruct H); try (intros ? H; destruct H).
    - cbn [fold_left]. assert (Hm : In m (getNext g (Some n))) by (apply Hi; left; reflexivity).
      assert (Hi' : incl todo (getNext g (Some n))) by (intros x Hx; apply Hi; right; exact Hx).
      destruct (print_ok n m st Hm) as [st1 E1]. unfold visit_next at 2. rewrite E1.
      assert (P1 : printed nm g [(n, m)] st st1) by exact E1.
      destruct (existsb (N.eqb m) V) eqn:Ev.
      + destruct (IH V st1 Hi' Hu) as (T & es & st2 & A & B & C & D & F & G). exists T, ((n, m) :: es), st2.
        split; [exact A|]. split; [exact B|]. split; [exact C|]. split.
        { intros x [<-|Hx]; [apply in_or_app; right; apply existsb_eqb_in, Ev|apply D, Hx]. }
        split; [cbn [map app]; constructor; exact F|]. apply (printed_app nm g [(n, m)] es st st1 st2 P1 G).
      + apply existsb_eqb_notin in Ev. destruct (known n m Hm) as [Km _].
        destruct (IHf m V st1 Km Ev Hu) as (T1 & e1 & st2 & A1 & B1 & C1 & D1 & F1 & G1). rewrite A1.
        assert (Hu2 : (unvisited (T1 ++ V) <= fuel)%nat).
        { apply (PeanoNat.Nat.le_trans _ (unvisited V)); [apply unvisited_le; intros x Hx; apply in_or_app; right; exact Hx|exact Hu]. }
        destruct (IH (T1 ++ V)%list st2 Hi' Hu2) as (T2 & e2 & st3 & A2 & B2 & C2 & D2 & F2 & G2).
        exists (T2 ++ T1)%list, ((n, m) :: e1 ++ e2), st3. split; [rewrite <- app_assoc; exact A2|].
        destruct B1 as (N1 & X1 & I1 & Y1), B2 as (N2 & X2 & I2 & Y2). split; [|split; [|split; [|split]]].
        * split; [|split; [|split]].
          -- clear - N1 N2 X2. induction T2 as [|x T2 IH]; [exact N1|]. inversion N2 as [|? ? H1 H2]. cbn [app]. constructor.
             ++ intro K. apply in_app_or in K. destruct K as [K|K]; [exact (H1 K)|]. apply (X2 x (or_introl eq_refl)). apply in_or_app. left. exact K.
             ++ apply IH; [assumption|]. intros y Hy. apply X2. right. exact Hy.
          -- intros x Hx Hv. apply in_app_or in Hx. destruct Hx as [Hx|Hx]; [apply (X2 x Hx), in_or_app; right; exact Hv|exact (X1 x Hx Hv)].
          -- intros x Hx. apply in_app_or in Hx. destruct Hx as [Hx|Hx]; [apply I2, Hx|apply I1, Hx].
          -- intros x y Hx Hy. apply in_app_or in Hx. destruct Hx as [Hx|Hx].
             ++ specialize (Y2 x y Hx Hy). rewrite app_assoc in Y2. exact Y2.
             ++ specialize (Y1 x y Hx Hy). rewrite <- app_assoc. apply in_or_app. right. exact Y1.
        * intros x Hx. apply in_app_or in Hx. destruct Hx as [Hx|Hx]; [apply C2, Hx|]. destruct (D1 x Hx) as [->|Hy]; [exists n; exact Hm|exact Hy].
        * intros x [<-|Hx]; [|rewrite <- app_assoc; apply D2, Hx]. rewrite <- app_assoc. apply in_or_app. right. apply in_or_app. left. exact C1.
        * cbn [map app]. constructor. rewrite flat_map_app, F1, F2. rewrite Permutation_app_comm, <- !app_assoc. reflexivity.
        * exact (printed_app nm g [(n, m)] (e1 ++ e2) st st1 st3 P1 (printed_app nm g e1 e2 st1 st2 st3 G1 G2)).
  Qed.
  Lemma visit_ok : forall fuel, visits fuel.
  Proof.
    induction fuel as [|fuel IH]; intros n V st Hi Hn Hu; [pose proof (unvisited_lt n V Hi Hn); lia|].
    rewrite visit_unfold. pose proof (unvisited_lt n V Hi Hn) as L.
    destruct (visit_fold fuel n IH (getNext g (Some n)) (n :: V) st (fun x H => H) ltac:(lia)) as (T & es & st' & A & B & C & D & F & G).
    destruct B as (N1 & X1 & I1 & Y1). exists (T ++ [n])%list, es, st'. split; [rewrite A, <- app_assoc; reflexivity|]. split; [split; [|split; [|split]]|split; [|split; [|split]]].
    - apply (Permutation_NoDup (l := n :: T)); [apply Permutation_cons_append|]. constructor; [|exact N1]. intro H. apply (X1 n H). left. reflexivity.
    - intros x Hx Hv. apply in_app_or in Hx. destruct Hx as [Hx|[<-|[]]]; [apply (X1 x Hx); right; exact Hv|exact (Hn Hv)].
    - intros x Hx. apply in_app_or in Hx. destruct Hx as [Hx|[<-|[]]]; [apply I1, Hx|exact Hi].
    - intros x y Hx Hy. rewrite <- app_assoc. apply in_app_or in Hx. destruct Hx as [Hx|[<-|[]]]; [apply (Y1 x y Hx Hy)|apply (D y Hy)].
    - apply in_or_app. right. left. reflexivity.
    - intros x Hx. apply in_app_or in Hx. destruct Hx as [Hx|[<-|[]]]; [right; apply C, Hx|left; reflexivity].
    - rewrite F, flat_map_app. cbn [flat_map]. rewrite app_nil_r. apply Permutation_app_comm.
    - exact G.
  Qed.
  (* From the root: the nodes without a previous one. *)
  Definition visit_root (fuel : nat) (s : option (list N * streams)) (next : N) : option (list N * streams) :=
    match s with None => None | Some s => visit nm fuel g next s end.
  Lemma root_fold fuel : forall todo V st, NoDup todo -> incl todo ids -> (forall x, In x todo -> ~ In x V) ->
    (forall x y, In x todo -> ~ In x (getNext g (Some y))) -> (unvisited V <= fuel)%nat ->
    exists T es st', fold_left (visit_root fuel) todo (Some (V, st)) = Some ((T ++ V)%list, st') /\ new_nodes T V /\ incl todo (T ++ V) /\
      Permutation es (flat_map (out_edges g) T) /\ printed nm g es st st'.
  Proof.
    induction todo as [|m todo IH]; intros V st Nd Hi Hv Hr Hu.
    - exists [], [], st. repeat split; try constructor; try (intros ? ? H; destruct H); try (intros ? H; destruct H).
    - cbn [fold_left visit_root]. apply NoDup_cons_iff in Nd; destruct Nd as [Nm Nd'].
      destruct (visit_ok fuel m V st (Hi m (or_introl eq_refl)) (Hv m (or_introl eq_refl)) Hu) as (T1 & e1 & st1 & A1 & B1 & C1 & D1 & F1 & G1). rewrite A1.
      destruct (IH (T1 ++ V)%list st1 Nd') as (T2 & e2 & st2 & A2 & B2 & C2 & F2 & G2).
      + intros x Hx. apply Hi. right. exact Hx.
      + intros x Hx H. apply in_app_or in H. destruct H as [H|H]; [|exact (Hv x (or_intror Hx) H)]. destruct (D1 x H) as [->|[y Hy]]; [exact (Nm Hx)|exact (Hr x y (or_intror Hx) Hy)].
      + intros x y Hx. apply Hr. right. exact Hx.
      + apply (PeanoNat.Nat.le_trans _ (unvisited V)); [apply unvisited_le; intros x Hx; apply in_or_app; right; exact Hx|exact Hu].
      + destruct B1 as (N1 & X1 & I1 & Y1), B2 as (N2 & X2 & I2 & Y2). exists (T2 ++ T1)%list, (e1 ++ e2)%list, st2. split; [rewrite <- app_assoc; exact A2|].
        split; [split; [|split; [|split]]|split; [|split]].
        * clear - N1 N2 X2. induction T2 as [|x T2 IH]; [exact N1|]. inversion N2 as [|? ? H1 H2]. cbn [app]. constructor.
          -- intro K. apply in_app_or in K. destruct K as [K|K]; [exact (H1 K)|]. apply (X2 x (or_introl eq_refl)). apply in_or_app. left. exact K.
          -- apply IH; [assumption|]. intros y Hy. apply X2. right. exact Hy.
        * intros x Hx H. apply in_app_or in Hx. destruct Hx as [Hx|Hx]; [apply (X2 x Hx), in_or_app; right; exact H|exact (X1 x Hx H)].
        * intros x Hx. apply in_app_or in Hx. destruct Hx as [Hx|Hx]; [apply I2, Hx|apply I1, Hx].
        * intros x y Hx Hy. apply in_app_or in Hx. destruct Hx as [Hx|Hx].
          -- specialize (Y2 x y Hx Hy). rewrite app_assoc in Y2. exact Y2.
          -- specialize (Y1 x y Hx Hy). rewrite <- app_assoc. apply in_or_app. right. exact Y1.
        * intros x [<-|Hx]; rewrite <- app_assoc; [apply in_or_app; right; apply in_or_app; left; exact C1|apply C2, Hx].
        * rewrite flat_map_app, F1, F2. apply Permutation_app_comm.
        * exact (printed_app nm g e1 e2 st st1 st2 G1 G2).
  Qed.
  Lemma visit_root_ok fuel : NoDup ids -> NoDup (getNext g None) -> incl (getNext g None) ids -> (forall x y, In x (getNext g None) -> ~ In x (getNext g (Some y))) ->
    (forall x, In x ids -> reachable g x) -> (List.length ids <= fuel)%nat ->
    exists es st, visitRoot nm fuel g = Some st /\ Permutation es (flat_map (out_edges g) ids) /\ printed nm g es first_streams st.
  Proof.
    intros Ni Nr Hi Hp Hr Hf.
    destruct (root_fold fuel (getNext g None) [] first_streams Nr Hi (fun x H => fun H' => H') Hp) as (T & es & st & A & B & C & F & G).
    { unfold unvisited. apply (PeanoNat.Nat.le_trans _ (List.length ids)); [|exact Hf]. clear. induction ids as [|x l IH]; [apply le_n|]. cbn [filter existsb negb List.length] in *. lia. }
    exists es, st. split; [unfold visitRoot; fold (visit_root fuel); rewrite A; reflexivity|]. split; [|exact G]. rewrite F.
    destruct B as (N1 & X1 & I1 & Y1). assert (P : Permutation T ids).
    { apply NoDup_Permutation; [exact N1|exact Ni|]. intro x. split; [apply I1|]. intro H. specialize (Hr x H). clear - Hr C Y1. rewrite app_nil_r in C.
      induction Hr as [n Hn|m n _ IH Hn]; [apply C, Hn|]. specialize (Y1 m n IH Hn). rewrite app_nil_r in Y1. exact Y1. }
    clear - P. induction P; cbn [flat_map]; try reflexivity.
    - apply Permutation_app_head, IHP.
    - rewrite !app_assoc. apply Permutation_app_tail, Permutation_app_comm.
    - etransitivity; eassumption.
  Qed.
End Visit.
