(* Proofs about the streams of the groups (C75, C76). *)
From Verif Require Import Spec_Dot Proof_Dot.
From Coq Require Import Lia.
Local Open Scope N_scope.

Lemma path_eqb_eq a : forall b, path_eqb a b = true <-> a = b.
Proof.
  induction a as [|x a IH]; intros [|y b]; cbn [path_eqb]; try (split; [discriminate|intro H; discriminate]); [split; reflexivity|].
  rewrite Bool.andb_true_iff, N.eqb_eq, IH. split; [intros [-> ->]; reflexivity|intro H; injection H as -> ->; split; reflexivity].
Qed.
Lemma path_eqb_refl a : path_eqb a a = true.
Proof. apply path_eqb_eq. reflexivity. Qed.
Lemma path_eqb_neq a b : path_eqb a b = false <-> a <> b.
Proof. rewrite <- path_eqb_eq. destruct (path_eqb a b); split; intro H; try reflexivity; try discriminate; exfalso; apply H; reflexivity. Qed.
Lemma isIn_iff inner outer : isIn inner outer = true <-> exists q, outer = (q ++ inner)%list.
Proof.
  induction outer as [|x outer IH]; cbn [isIn]; rewrite Bool.orb_true_iff, path_eqb_eq.
  - split; [intros [<-|H]; [exists []; reflexivity|discriminate]|intros [q H]]. left. destruct q; [exact H|discriminate].
  - rewrite IH. split.
    + intros [<-|[q ->]]; [exists []; reflexivity|exists (x :: q); reflexivity].
    + intros [[|y q] H]; [left; exact H|right; injection H as -> ->; exists q; reflexivity].
Qed.

(* The keys of the streams. *)
Definition keys (s : streams) : list gpath := map fst s.
Record st_ok (s : streams) : Prop := {
  so_nodup : NoDup (keys s); so_root : In [] (keys s); so_parent : forall x p, In (x :: p) (keys s) -> In p (keys s) }.
Lemma first_ok : st_ok first_streams.
Proof. constructor; cbn; [constructor; [intros []|constructor]|left; reflexivity|intros x p [H|[]]; discriminate]. Qed.
Lemma keys_update g f s : keys (st_update g f s) = keys s.
Proof. unfold keys, st_update. rewrite map_map. apply map_ext. intro e. destruct (path_eqb (fst e) g); reflexivity. Qed.
Lemma update_ok g f s : st_ok s -> st_ok (st_update g f s).
Proof. intros [A B C]. constructor; rewrite keys_update; assumption. Qed.
Lemma st_has_iff s g : st_has s g = true <-> In g (keys s).
Proof.
  unfold st_has, keys. rewrite existsb_exists, in_map_iff. split; intros (e & H1 & H2).
  - exists e. apply path_eqb_eq in H2. split; assumption.
  - exists e. split; [exact H2|apply path_eqb_eq, H1].
Qed.
Lemma suffix_key s : st_ok s -> forall q g, In (q ++ g)%list (keys s) -> In g (keys s).
Proof. intros H q. induction q as [|x q IH]; intros g K; [exact K|]. apply IH. apply (so_parent s H x). exact K. Qed.

Lemma emplace_shape g : forall s, st_ok s -> exists ks, st_emplace g s = (s ++ map (fun k => (k, no_sdata)) ks)%list /\
  (forall k, In k ks -> k <> [] /\ exists q, g = (q ++ k)%list) /\ st_ok (st_emplace g s) /\ In g (keys (st_emplace g s)).
Proof.
  induction g as [|x g IH]; intros s H.
  - exists []. cbn [st_emplace map]. rewrite app_nil_r. split; [reflexivity|]. split; [intros k []|]. split; [exact H|exact (so_root s H)].
  - cbn [st_emplace]. destruct (st_has s (x :: g)) eqn:E.
    + exists []. cbn [map]. rewrite app_nil_r. split; [reflexivity|]. split; [intros k []|]. split; [exact H|apply st_has_iff, E].
    + destruct (IH s H) as (ks & A & B & C & D). exists (ks ++ [x :: g])%list. split; [rewrite A, map_app, app_assoc; reflexivity|]. split; [|split].
      * intros k Hk. apply in_app_or in Hk. destruct Hk as [Hk|[<-|[]]]; [|split; [discriminate|exists []; reflexivity]].
        destruct (B k Hk) as [B1 [q ->]]. split; [exact B1|exists (x :: q); reflexivity].
      * destruct C as [C1 C2 C3]. unfold keys in *. constructor; unfold keys; rewrite map_app; cbn [map fst].
        -- apply (Permutation_NoDup (Permutation_cons_append (map fst (st_emplace g s)) (x :: g))). constructor; [|exact C1].
           intro K. rewrite A, map_app, map_map in K. cbn [fst] in K. rewrite map_id in K. apply in_app_or in K. destruct K as [K|K].
           ++ assert (F : st_has s (x :: g) = true) by (apply st_has_iff; exact K). congruence.
           ++ destruct (B _ K) as [_ [q Hq]]. apply (f_equal (@List.length N)) in Hq. rewrite app_length in Hq. cbn in Hq. lia.
        -- apply in_or_app. left. exact C2.
        -- intros y p K. apply in_app_or in K. apply in_or_app. left. destruct K as [K|[K|[]]]; [apply (C3 y), K|injection K as _ <-; exact D].
      * unfold keys. rewrite map_app. apply in_or_app. right. left. reflexivity.
Qed.
Lemma emplace_ok g s : st_ok s -> st_ok (st_emplace g s).
Proof. intro H. destruct (emplace_shape g s H) as (ks & _ & _ & C & _). exact C. Qed.
Lemma emplace_in g s : st_ok s -> In g (keys (st_emplace g s)).
Proof. intro H. destruct (emplace_shape g s H) as (ks & _ & _ & _ & D). exact D. Qed.
Lemma emplace_keys g s : st_ok s -> incl (keys s) (keys (st_emplace g s)).
Proof. intro H. destruct (emplace_shape g s H) as (ks & A & _). unfold keys. rewrite A, map_app. intros k K. apply in_or_app. left. exact K. Qed.

(* Steps on the text of one group. *)
Definition plain (l : line) : Prop := match l with LNode _ | LEdge _ _ _ => True | _ => False end.
Definition node_ok (d : sdata) : Prop := forall n, declared n (sd_lines d) = if has_name n (sd_nodes d) then 1%nat else 0%nat.
Definition step (f : sdata -> sdata) (x : list (string * string * string)) (P : string -> Prop) : Prop := forall d,
  (exists new, sd_lines (f d) = (sd_lines d ++ new)%list /\ arrows new = x /\ Forall plain new) /\
  (node_ok d -> node_ok (f d)) /\
  (forall n, has_name n (sd_nodes d) = true -> has_name n (sd_nodes (f d)) = true) /\
  (forall n, has_name n (sd_nodes (f d)) = true -> has_name n (sd_nodes d) = true \/ P n).
Lemma arrows_app a b : arrows (a ++ b) = (arrows a ++ arrows b)%list.
Proof. apply flat_map_app. Qed.
Lemma declared_app n a b : declared n (a ++ b) = (declared n a + declared n b)%nat.
Proof. unfold declared. rewrite filter_app, app_length. reflexivity. Qed.
Lemma has_name_app n a b : has_name n (a ++ b) = orb (has_name n a) (has_name n b).
Proof. apply existsb_app. Qed.
Lemma step_weaken f x (P Q : string -> Prop) : (forall n, P n -> Q n) -> step f x P -> step f x Q.
Proof. intros H S d. destruct (S d) as (A & B & C & D). repeat split; try assumption. intros n K. destruct (D n K); auto. Qed.
Lemma step_comp f g x y P : step f x P -> step g y P -> step (fun d => g (f d)) (x ++ y) P.
Proof.
  intros F G d. destruct (F d) as ((n1 & A1 & A2 & A3) & B & C & D), (G (f d)) as ((n2 & A1' & A2' & A3') & B' & C' & D'). split; [|split; [|split]].
  - exists (n1 ++ n2)%list. rewrite A1', A1, <- app_assoc, arrows_app, A2, A2'. repeat split. apply Forall_app. split; assumption.
  - intro H. apply B', B, H.
  - intros n H. apply C', C, H.
  - intros n H. destruct (D' n H) as [H1|H1]; [apply D, H1|right; exact H1].
Qed.
Lemma step_id P : step (fun d => d) [] P.
Proof. intro d. split; [exists []; rewrite app_nil_r; repeat split; constructor|]. repeat split; auto. Qed.
Lemma step_node name : step (displayNode name) [] (eq name).
Proof.
  intro d. unfold displayNode. destruct (has_name name (sd_nodes d)) eqn:E; [apply (step_id (eq name) d)|]. cbn [sd_nodes sd_lines]. split; [|split; [|split]].
  - exists [LNode name]. repeat split. constructor; [exact I|constructor].
  - intros H n. cbn [sd_nodes sd_lines]. rewrite declared_app, H, has_name_app. unfold declared. cbn [filter has_name existsb].
    destruct (String.eqb_spec name n) as [<-|Hn]; [rewrite E, String.eqb_refl; reflexivity|].
    destruct (String.eqb_spec n name) as [->|_]; [congruence|]. rewrite !Bool.orb_false_r. cbn. rewrite PeanoNat.Nat.add_0_r. reflexivity.
  - intros n H. rewrite has_name_app, H. reflexivity.
  - intros n H. rewrite has_name_app in H. apply Bool.orb_true_iff in H. destruct H as [H|H]; [left; exact H|]. cbn in H. rewrite Bool.orb_false_r in H. right. apply String.eqb_eq in H. congruence.
Qed.
Lemma step_edge a b x P : step (displayEdge a b x) [(a, b, x)] P.
Proof.
  intro d. unfold displayEdge. cbn [sd_nodes sd_lines]. split; [|split; [|split]]; auto.
  - exists [LEdge a b x]. repeat split. constructor; [exact I|constructor].
  - intros H n. cbn [sd_nodes sd_lines]. rewrite declared_app, H. unfold declared. cbn. apply PeanoNat.Nat.add_0_r.
Qed.
Lemma step_fold {A} (h : A -> sdata -> sdata) (X : A -> list (string * string * string)) P l :
  (forall a, step (h a) (X a) P) -> step (fun d => fold_left (fun d a => h a d) l d) (flat_map X l) P.
Proof. intro H. induction l as [|a l IH]; [apply step_id|]. cbn [fold_left flat_map]. exact (step_comp (h a) _ (X a) _ P (H a) IH). Qed.

(* The whole of the streams. *)
Definition all_arrows (s : streams) : list (string * string * string) := flat_map (fun e => arrows (sd_lines (snd e))) s.
Lemma update_arrows g f x P s : st_ok s -> In g (keys s) -> step f x P -> Permutation (all_arrows (st_update g f s)) (all_arrows s ++ x).
Proof.
  intros [Nd _ _] Hg S. unfold all_arrows, st_update, keys in *. induction s as [|[k d] s IH]; [destruct Hg|]. cbn [map fst flat_map].
  cbn [map fst] in Nd, Hg. apply NoDup_cons_iff in Nd. destruct Nd as [Nk Nd]. destruct (path_eqb k g) eqn:E.
  - apply path_eqb_eq in E. subst k. cbn [snd]. destruct (S d) as ((new & A1 & A2 & _) & _). rewrite A1, arrows_app, A2.
    assert (Eq : map (fun e => if path_eqb (fst e) g then (fst e, f (snd e)) else e) s = s).
    { clear - Nk. induction s as [|[k d] s IH]; [reflexivity|]. cbn [map fst]. destruct (path_eqb k g) eqn:E.
      - apply path_eqb_eq in E. subst. exfalso. apply Nk. left. reflexivity.
      - f_equal. apply IH. intro H. apply Nk. right. exact H. }
    rewrite Eq, <- !app_assoc. apply Permutation_app_head, Permutation_app_comm.
  - cbn [snd]. rewrite <- app_assoc. apply Permutation_app_head, IH; [exact Nd|]. destruct Hg as [Hg|Hg]; [|exact Hg]. subst. rewrite path_eqb_refl in E. discriminate.
Qed.
Lemma emplace_arrows g s : st_ok s -> all_arrows (st_emplace g s) = all_arrows s.
Proof.
  intro H. destruct (emplace_shape g s H) as (ks & A & _). unfold all_arrows. rewrite A, flat_map_app. clear. replace (flat_map _ (map _ ks)) with (@nil (string * string * string)); [apply app_nil_r|].
  induction ks as [|k ks IH]; [reflexivity|exact IH].
Qed.
Lemma in_update g f s k d : In (k, d) (st_update g f s) -> exists d0, In (k, d0) s /\ d = (if path_eqb k g then f d0 else d0).
Proof.
  unfold st_update. rewrite in_map_iff. intros ([k0 d0] & E & H). cbn [fst snd] in E. destruct (path_eqb k0 g) eqn:K; injection E as <- <-; exists d0; rewrite K; split; auto.
Qed.
Lemma in_update' g f s k d : In (k, d) s -> In (k, if path_eqb k g then f d else d) (st_update g f s).
Proof. intro H. unfold st_update. apply in_map_iff. exists (k, d). split; [|exact H]. cbn [fst snd]. destruct (path_eqb k g); reflexivity. Qed.
Lemma in_emplace g s k d : st_ok s -> In (k, d) (st_emplace g s) -> In (k, d) s \/ (d = no_sdata /\ k <> [] /\ exists q, g = (q ++ k)%list).
Proof.
  intros H K. destruct (emplace_shape g s H) as (ks & A & B & _). rewrite A in K. apply in_app_or in K. destruct K as [K|K]; [left; exact K|right].
  apply in_map_iff in K. destruct K as (k0 & E & K). injection E as <- <-. destruct (B k0 K). auto.
Qed.
Lemma in_emplace' g s k d : st_ok s -> In (k, d) s -> In (k, d) (st_emplace g s).
Proof. intros H K. destruct (emplace_shape g s H) as (ks & A & _). rewrite A. apply in_or_app. left. exact K. Qed.

(* Where the text of an edge goes. *)
Lemma common_key s l r : st_ok s -> In l (keys s) -> In (getCommonGroup l r) (keys s).
Proof.
  intro H. induction l as [|x l IH]; intro K; cbn [getCommonGroup].
  - destruct (isIn [] r); exact K.
  - destruct (isIn (x :: l) r); [exact K|]. apply IH. apply (so_parent s H x), K.
Qed.
Lemma edge_group_key s l r : st_ok s -> In l (keys s) -> In (edge_group l r) (keys s).
Proof.
  intros H K. unfold edge_group. destruct l as [|x l]; [exact (so_root s H)|]. destruct r as [|y r]; [exact (so_root s H)|].
  destruct (path_eqb (x :: l) (y :: r)); [exact K|]. apply common_key; assumption.
Qed.
Lemma common_root d : forall a r, (exists b, r = (b ++ [d])%list) -> exists c, getCommonGroup (a ++ [d]) r = (c ++ [d])%list.
Proof.
  induction a as [|x a IH]; intros r Hr; cbn [app getCommonGroup].
  - destruct Hr as [b ->]. assert (E : isIn [d] (b ++ [d]) = true) by (apply isIn_iff; exists b; reflexivity). rewrite E. exists []. reflexivity.
  - destruct (isIn (x :: a ++ [d]) r); [exists (x :: a); reflexivity|apply IH, Hr].
Qed.
Lemma edge_group_root d a b : exists c, edge_group (a ++ [d]) (b ++ [d]) = (c ++ [d])%list.
Proof.
  unfold edge_group. destruct (a ++ [d])%list as [|x l] eqn:Ea; [destruct a; discriminate|]. destruct (b ++ [d])%list as [|y r] eqn:Eb; [destruct b; discriminate|].
  destruct (path_eqb (x :: l) (y :: r)); [exists a; congruence|]. rewrite <- Ea. apply common_root. exists b. congruence.
Qed.
