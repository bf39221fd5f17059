(* What the constructors and destructors of passes and graphs do to what lives. *)
From Verif Require Import Spec_Life Proof_Layout Proof_Run3 Proof_Life.
From Coq Require Import List Permutation.
Import ListNotations.
Local Open Scope N_scope.

Definition mkt (k : lkind) (h p : N) (n : string) : thing := {| th_kind := k; th_handle := h; th_parent := p; th_name := n |}.
Definition opt (k : lkind) (h p : N) (n : string) : list thing := if N.eqb h 0 then [] else [mkt k h p n].
Definition things_pd (pool : N) (name : string) (x : lpdata) : list thing :=
  opt LSemaphore (pd_semaphore x) 0 name ++ opt LBuffer (pd_buffer x) pool name ++ opt LFence (lf_handle (pd_fence x)) 0 name.
Definition things_pass (pool : N) (p : lpass) : list thing := flat_map (things_pd pool (lp_name p)) (lp_datas p).
Definition all_unused (P : list (N * N * N)) (l : list thing) : Prop := forall x, In x l -> unused P (th_handle x).
Definition has_pool (L : list thing) (pool : N) : Prop := exists p n, In (mkt LCommandPool pool p n) L.

Lemma all_unused_app P a b : all_unused P (a ++ b) <-> all_unused P a /\ all_unused P b.
Proof. unfold all_unused. split; [intros H; split; intros x I; apply H; apply in_or_app; auto|]. intros [A B] x I. apply in_app_or in I as [I|I]; auto. Qed.
Lemma has_pool_app L M pool : has_pool L pool -> has_pool (M ++ L) pool.
Proof. intros (p & n & I). exists p, n. apply in_or_app. now right. Qed.

Lemma lcreate_ok d k parent name log strict L P log' h : honest d -> (k = LBuffer -> has_pool L parent) ->
  St strict log L P -> lcreate d k parent name log = (log', Some h) ->
  St strict log' (mkt k h parent name :: L) P /\ unused P h /\ h <> 0.
Proof.
  intros Ho Po S. unfold lcreate. destruct (d log k) as [q|] eqn:E; [|discriminate]. intros [= <- <-].
  destruct (Ho _ _ _ E) as [Z Fr]. split; [|split; [|exact Z]].
  - apply St_created; auto. intros K. destruct (Po K) as (p & n & I). exact (lives_in _ _ _ _ _ _ _ _ S I).
  - intros b s f I. destruct (st_pending _ _ _ _ S b s f I) as (A & B & C).
    pose proof (Permutation_map th_handle (st_living _ _ _ _ S)) as PM. rewrite PM in Fr. repeat split; intros ->; auto.
Qed.
Lemma lcreate_no d k parent name log strict L P log' : St strict log L P -> lcreate d k parent name log = (log', None) -> St strict log' L P.
Proof. intros S. unfold lcreate. destruct (d log k); [discriminate|]. intros [= <-]. apply St_neutral; auto; exact Logic.I. Qed.

Lemma St_destroy_opt strict log k h p n L P : k <> LCommandPool -> St strict log (opt k h p n ++ L) P -> all_unused P (opt k h p n) -> St strict (ldestroy k h log) L P.
Proof.
  intros K S U. unfold opt in *. destruct (N.eqb_spec h 0) as [->|Z]; [exact S|]. apply (St_destroyed strict log k h p n); auto. apply (U (mkt k h p n)). now left.
Qed.
Lemma St_free_opt strict log pool h n L P : St strict log (opt LBuffer h pool n ++ L) P -> all_unused P (opt LBuffer h pool n) -> has_pool L pool -> St strict (lfree pool h log) L P.
Proof.
  intros S U (pp & np & I). unfold opt in *. destruct (N.eqb_spec h 0) as [->|Z]; [exact S|]. apply (St_freed strict log pool h n np pp L P); auto. apply (U (mkt LBuffer h pool n)). now left.
Qed.

Lemma destroy_pd_ok strict log pool name x L P : St strict log (things_pd pool name x ++ L) P -> all_unused P (things_pd pool name x) -> has_pool L pool ->
  St strict (destroy_lpdata pool log x) L P.
Proof.
  intros S U Po. unfold destroy_lpdata, things_pd in *. apply all_unused_app in U as [U1 U]. apply all_unused_app in U as [U2 U3].
  rewrite <- !app_assoc in S. apply St_destroy_opt in S; [|discriminate|exact U1]. apply St_free_opt in S; [|exact U2|now apply has_pool_app].
  apply St_destroy_opt in S; [exact S|discriminate|exact U3].
Qed.
Lemma destroy_pds_ok strict pool name L P : has_pool L pool -> forall l log, St strict log (flat_map (things_pd pool name) l ++ L) P -> all_unused P (flat_map (things_pd pool name) l) ->
  St strict (destroy_lpdatas pool l log) L P.
Proof.
  intros Po. unfold destroy_lpdatas. induction l as [|x l IH]; cbn; intros log S U; [exact S|]. apply all_unused_app in U as [U1 U2].
  apply IH; [|exact U2]. apply (destroy_pd_ok _ _ _ name); [now rewrite app_assoc|exact U1|now apply has_pool_app].
Qed.
Lemma moved_no_effect pool l log : destroy_lpdatas pool (map moved_lpdata l) log = log.
Proof. unfold destroy_lpdatas. revert log. induction l as [|x l IH]; cbn; intros log; [reflexivity|]. apply IH. Qed.
Lemma destroy_lpass_ok strict pool log p L P : has_pool L pool -> St strict log (things_pass pool p ++ L) P -> all_unused P (things_pass pool p) -> St strict (destroy_lpass pool log p) L P.
Proof. intros Po S U. exact (destroy_pds_ok strict pool (lp_name p) L P Po (lp_datas p) log S U). Qed.
Lemma destroy_lpasses_ok strict pool L P : has_pool L pool -> forall l log, St strict log (flat_map (things_pass pool) l ++ L) P -> all_unused P (flat_map (things_pass pool) l) ->
  St strict (fold_left (destroy_lpass pool) l log) L P.
Proof.
  intros Po. induction l as [|x l IH]; cbn; intros log S U; [exact S|]. apply all_unused_app in U as [U1 U2].
  apply IH; [|exact U2]. apply destroy_lpass_ok; [now apply has_pool_app|now rewrite app_assoc|exact U1].
Qed.

(* ---- construction of a pass ---- *)
Lemma new_pd_ok d pool name log strict L P : honest d -> St strict log L P ->
  match new_lpdata d name log with
  | (log', Some x) => St strict log' (things_pd pool name x ++ L) P /\ all_unused P (things_pd pool name x)
  | (log', None) => St strict log' L P
  end.
Proof.
  intros Ho S. unfold new_lpdata, new_lfence. destruct (lcreate d LFence 0 name log) as [log1 [f|]] eqn:E1.
  - destruct (lcreate_ok d LFence 0 name log strict L P log1 f Ho ltac:(discriminate) S E1) as (S1 & U1 & Z1).
    destruct (lcreate d LSemaphore 0 name log1) as [log2 [s|]] eqn:E2.
    + destruct (lcreate_ok d LSemaphore 0 name log1 strict _ P log2 s Ho ltac:(discriminate) S1 E2) as (S2 & U2 & Z2).
      unfold things_pd, opt. cbn. rewrite (proj2 (N.eqb_neq _ _) Z1), (proj2 (N.eqb_neq _ _) Z2). cbn. split; [exact S2|].
      intros x I. cbn in I. destruct I as [I|[I|[]]]; subst x; assumption.
    + pose proof (lcreate_no _ _ _ _ _ _ _ _ _ S1 E2) as S2. cbn. apply (St_destroyed strict log2 LFence f 0 name L P); [discriminate|exact S2|exact U1].
  - exact (lcreate_no _ _ _ _ _ _ _ _ _ S E1).
Qed.
Lemma flat_map_snoc {A B} (f : A -> list B) l x : flat_map f (l ++ [x]) = flat_map f l ++ f x.
Proof. rewrite flat_map_app. cbn. now rewrite app_nil_r. Qed.
Lemma St_swap strict log A B L P : St strict log (A ++ B ++ L) P -> St strict log ((B ++ A) ++ L) P.
Proof. apply St_perm. rewrite !app_assoc. apply Permutation_app_tail. apply Permutation_app_comm. Qed.
Lemma fill_ok d pool name grows L P strict : honest d -> has_pool L pool -> forall n l log,
  St strict log (flat_map (things_pd pool name) l ++ L) P -> all_unused P (flat_map (things_pd pool name) l) ->
  match fill_lpdatas d pool name grows n l log with
  | (log', Some l') => St strict log' (flat_map (things_pd pool name) l' ++ L) P /\ all_unused P (flat_map (things_pd pool name) l')
  | (log', None) => St strict log' L P
  end.
Proof.
  intros Ho Po. induction n as [|n IH]; cbn; intros l log S U; [now split|].
  pose proof (new_pd_ok d pool name log strict _ P Ho S) as N. destruct (new_lpdata d name log) as [log1 [x|]].
  - destruct N as [N1 N2]. rewrite moved_no_effect. replace (if grows (List.length l) then log1 else log1) with log1 by now destruct (grows (List.length l)).
    apply IH.
    + rewrite flat_map_snoc. apply St_swap. exact N1.
    + rewrite flat_map_snoc. now apply all_unused_app.
  - apply (destroy_pds_ok strict pool name L P Po l); assumption.
Qed.
Lemma create_lpass_ok d pool pl log strict L P : honest d -> has_pool L pool -> St strict log L P ->
  match create_lpass d pool pl log with
  | (log', Some p) => St strict log' (things_pass pool p ++ L) P /\ all_unused P (things_pass pool p)
  | (log', None) => St strict log' L P
  end.
Proof.
  intros Ho Po S. unfold create_lpass.
  pose proof (fill_ok d pool (pp_name pl) (pp_grows pl) L P strict Ho Po (pp_count pl) [] log S ltac:(intros x [])) as F.
  destruct (pp_throw pl); [|exact S|]; destruct (fill_lpdatas d pool (pp_name pl) (pp_grows pl) (pp_count pl) [] log) as [log1 [l|]]; auto.
  destruct F as [F1 F2]. apply (destroy_lpass_ok strict pool log1 _ L P Po); assumption.
Qed.
Lemma create_lpasses_ok d pool L P strict : honest d -> has_pool L pool -> forall plans done log,
  St strict log (flat_map (things_pass pool) done ++ L) P -> all_unused P (flat_map (things_pass pool) done) ->
  let '(log', passes, _) := create_lpasses d pool plans done log in
  St strict log' (flat_map (things_pass pool) passes ++ L) P /\ all_unused P (flat_map (things_pass pool) passes).
Proof.
  intros Ho Po. induction plans as [|pl r IH]; cbn; intros done log S U; [now split|].
  pose proof (create_lpass_ok d pool pl log strict _ P Ho (has_pool_app _ _ _ Po) S) as C. destruct (create_lpass d pool pl log) as [log1 [p|]].
  - destruct C as [C1 C2]. apply IH; rewrite flat_map_snoc; [now apply St_swap|now apply all_unused_app].
  - now split.
Qed.

(* ---- graphs ---- *)
Definition things_members (name : string) (queries pool : N) (passes : list lpass) (fence : lfence) : list thing :=
  [mkt LFence (lf_handle fence) 0 (name ++ "/Graph")] ++ flat_map (things_pass pool) passes ++ [mkt LCommandPool pool 0 name; mkt LQueryPool queries 0 (name ++ "TimerQueries")].
Definition graph_semaphore (g : lgraph) : thing := mkt LSemaphore (lg_semaphore g) 0 (lg_name g ++ "/Graph").
Definition graph_buffer (g : lgraph) : thing := mkt LBuffer (lg_buffer g) (lg_pool g) (lg_name g ++ "/Graph").
Definition things_graph (g : lgraph) : list thing :=
  graph_semaphore g :: graph_buffer g :: things_members (lg_name g) (lg_queries g) (lg_pool g) (lg_passes g) (lg_fence g).

Lemma members_ok strict' strict log name queries pool passes fence more L P :
  St strict log (things_members name queries pool passes fence ++ more ++ L) P -> all_unused P (things_members name queries pool passes fence) ->
  (forall y, In y more -> th_kind y = LBuffer /\ th_parent y = pool /\ unused P (th_handle y)) -> orphan L pool ->
  (more = [] /\ strict' = strict \/ strict' = false) ->
  St strict' (destroy_members queries pool passes fence log) L P.
Proof.
  intros S U M O Ss. unfold destroy_members, things_members in *. apply all_unused_app in U as [U1 U]. apply all_unused_app in U as [U2 U3].
  rewrite <- !app_assoc in S. cbn [app] in S.
  apply (St_destroyed strict _ LFence (lf_handle fence) 0 (name ++ "/Graph")) in S; [|discriminate|exact (U1 _ (or_introl eq_refl))].
  apply destroy_lpasses_ok in S; [|exists 0, name; now left|exact U2].
  apply (St_destroyed strict' _ LQueryPool queries 0 (name ++ "TimerQueries")); [discriminate| |exact (U3 _ (or_intror (or_introl eq_refl)))].
  apply (St_pool strict' strict _ pool 0 name more).
  - eapply St_perm; [|exact S]. apply perm_skip. apply Permutation_middle.
  - exact M.
  - intros y [<-|I]; [discriminate|exact (O y I)].
  - exact (U3 _ (or_introl eq_refl)).
  - exact Ss.
Qed.
Lemma destroy_lgraph_ok strict log g L P : St strict log (things_graph g ++ L) P -> all_unused P (things_graph g) -> orphan L (lg_pool g) ->
  St strict (destroy_lgraph g log) L P.
Proof.
  intros S U O. unfold destroy_lgraph, things_graph in *. cbn [app] in S.
  apply (St_destroyed strict _ LSemaphore _ 0 (lg_name g ++ "/Graph")) in S; [|discriminate|exact (U _ (or_introl eq_refl))].
  assert (Po : has_pool (things_members (lg_name g) (lg_queries g) (lg_pool g) (lg_passes g) (lg_fence g) ++ L) (lg_pool g)).
  { exists 0, (lg_name g). apply in_or_app. left. unfold things_members. rewrite !in_app_iff. right; right; left. reflexivity. }
  destruct Po as (pp & np & Po).
  apply (St_freed strict _ (lg_pool g) (lg_buffer g) (lg_name g ++ "/Graph") np pp) in S; [|exact (U _ (or_intror (or_introl eq_refl)))|exact Po].
  apply (members_ok strict strict _ (lg_name g) _ _ _ _ [] L P); auto; [|now intros y []].
  intros y I. apply U. right. right. exact I.
Qed.

(* ---- the log only grows ---- *)
Definition ext (a b : list levent) : Prop := exists e, b = a ++ e.
Lemma ext_refl a : ext a a. Proof. exists []. now rewrite app_nil_r. Qed.
Lemma ext_trans a b c : ext a b -> ext b c -> ext a c.
Proof. intros [e ->] [f ->]. exists (e ++ f). now rewrite app_assoc. Qed.
Lemma ext_snoc a e : ext a (a ++ e). Proof. now exists e. Qed.
Lemma ext_destroy k h a : ext a (ldestroy k h a).
Proof. unfold ldestroy. destruct (N.eqb h 0); [apply ext_refl|apply ext_snoc]. Qed.
Lemma ext_free p h a : ext a (lfree p h a).
Proof. unfold lfree. destruct (N.eqb h 0); [apply ext_refl|apply ext_snoc]. Qed.
Lemma ext_create d k p n a b o : lcreate d k p n a = (b, o) -> ext a b.
Proof. unfold lcreate. destruct (d a k); intros [= <- <-]; apply ext_snoc. Qed.
Lemma ext_pd pool x a : ext a (destroy_lpdata pool a x).
Proof. unfold destroy_lpdata. eapply ext_trans; [apply ext_destroy|]. eapply ext_trans; [apply ext_free|]. apply ext_destroy. Qed.
Lemma ext_pds pool l : forall a, ext a (destroy_lpdatas pool l a).
Proof. unfold destroy_lpdatas. induction l as [|x l IH]; cbn; intros a; [apply ext_refl|]. eapply ext_trans; [apply ext_pd|apply IH]. Qed.
Lemma ext_lpasses pool l : forall a, ext a (fold_left (destroy_lpass pool) l a).
Proof. induction l as [|x l IH]; cbn; intros a; [apply ext_refl|]. eapply ext_trans; [apply ext_pds|apply IH]. Qed.
Lemma ext_members q pool l f a : ext a (destroy_members q pool l f a).
Proof. unfold destroy_members. eapply ext_trans; [apply ext_destroy|]. eapply ext_trans; [apply ext_lpasses|]. eapply ext_trans; [apply ext_destroy|]. apply ext_destroy. Qed.
Lemma ext_new_pd d n a b o : new_lpdata d n a = (b, o) -> ext a b.
Proof.
  unfold new_lpdata, new_lfence. destruct (lcreate d LFence 0 n a) as [b1 [f|]] eqn:E; [|intros [= <- <-]; exact (ext_create _ _ _ _ _ _ _ E)].
  apply ext_create in E. destruct (lcreate d LSemaphore 0 n b1) as [b2 [s|]] eqn:E2; intros [= <- <-]; apply ext_create in E2.
  - exact (ext_trans _ _ _ E E2).
  - eapply ext_trans; [exact E|]. eapply ext_trans; [exact E2|apply ext_destroy].
Qed.
Lemma ext_fill d pool name grows : forall n l a b o, fill_lpdatas d pool name grows n l a = (b, o) -> ext a b.
Proof.
  induction n as [|n IH]; cbn; intros l a b o; [intros [= <- <-]; apply ext_refl|]. destruct (new_lpdata d name a) as [b1 [x|]] eqn:E; apply ext_new_pd in E.
  - intros H. apply IH in H. eapply ext_trans; [exact E|]. eapply ext_trans; [|exact H]. destruct (grows (List.length l)); [apply ext_pds|apply ext_refl].
  - intros [= <- <-]. eapply ext_trans; [exact E|apply ext_pds].
Qed.
Lemma ext_lpass d pool pl a b o : create_lpass d pool pl a = (b, o) -> ext a b.
Proof.
  unfold create_lpass. destruct (fill_lpdatas d pool (pp_name pl) (pp_grows pl) (pp_count pl) [] a) as [b1 o1] eqn:E. apply ext_fill in E.
  destruct (pp_throw pl); [|intros [= <- <-]; apply ext_refl|]; destruct o1; intros [= <- <-]; auto. eapply ext_trans; [exact E|apply ext_pds].
Qed.
Lemma ext_create_lpasses d pool : forall plans done a, ext a (fst (fst (create_lpasses d pool plans done a))).
Proof.
  induction plans as [|pl r IH]; cbn; intros done a; [apply ext_refl|]. destruct (create_lpass d pool pl a) as [b [p|]] eqn:E; apply ext_lpass in E; [|exact E].
  eapply ext_trans; [exact E|apply IH].
Qed.

(* ---- construction of a graph ---- *)
Definition closed_things (A : list thing) : Prop := forall y, In y A -> th_kind y = LBuffer -> In (th_parent y) (map th_handle A).
Lemma closed_orphan A h : closed_things A -> ~ In h (map th_handle A) -> orphan A h.
Proof. intros C N y I K E. apply N. rewrite <- E. exact (C y I K). Qed.
Lemma st_fresh strict log x L P : St strict log (x :: L) P -> ~ In (th_handle x) (map th_handle L).
Proof. intros S. pose proof (st_nodup _ _ _ _ S) as N. cbn in N. now apply NoDup_cons_iff in N. Qed.

Lemma new_lgraph_ok d g log strict L P : honest d -> closed_things L -> St strict log L P ->
  match new_lgraph d g log with
  | (log', Some g') => St strict log' (things_graph g' ++ L) P /\ all_unused P (things_graph g')
  | (log', None) => exists evs, log' = log ++ evs /\
      ((~ has_semaphore evs /\ St strict log' L P) \/
       (exists h, In (LCreated LSemaphore h 0 (gp_name g ++ "/Graph")) evs /\ unused P h /\ St false log' (mkt LSemaphore h 0 (gp_name g ++ "/Graph") :: L) P))
  end.
Proof.
  intros Ho Cl S. unfold new_lgraph, new_lfence.
  set (nq := (gp_name g ++ "TimerQueries")%string). set (ng := (gp_name g ++ "/Graph")%string). 
  destruct (lcreate d LQueryPool 0 nq log) as [log1 [q|]] eqn:E1.
  2: { pose proof (lcreate_no _ _ _ _ _ _ _ _ _ S E1) as S1. unfold lcreate in E1. destruct (d log LQueryPool); [discriminate|]. injection E1 as <-. exists [LRefused LQueryPool]. split; [reflexivity|]. left. split; [|exact S1].
       intros (h & p & n & [H|[]]); discriminate H. }
  destruct (lcreate_ok d LQueryPool 0 nq log strict L P log1 q Ho ltac:(discriminate) S E1) as (S1 & U1 & Z1).
  assert (X1 : log1 = log ++ [LCreated LQueryPool q 0 nq; LRegistered LQueryPool q nq]). { unfold lcreate in E1. destruct (d log LQueryPool); [|discriminate]. now injection E1 as <- ->. } clear E1.
  destruct (lcreate d LCommandPool 0 (gp_name g) log1) as [log2 [pool|]] eqn:E2.
  2: { pose proof (lcreate_no _ _ _ _ _ _ _ _ _ S1 E2) as S2. unfold lcreate in E2. destruct (d log1 LCommandPool); [discriminate|]. injection E2 as <-.
       exists ([LCreated LQueryPool q 0 nq; LRegistered LQueryPool q nq] ++ [LRefused LCommandPool] ++ [LUnregistered q; LDestroyed LQueryPool q]). split.
       - unfold ldestroy. rewrite (proj2 (N.eqb_neq _ _) Z1). subst log1. rewrite <- !app_assoc. reflexivity.
       - left. split; [|apply (St_destroyed strict _ LQueryPool q 0 nq L P); [discriminate|exact S2|exact U1]].
         intros (h & p & n & H). cbn in H. repeat (destruct H as [H|H]; [discriminate H|]). exact H. }
  destruct (lcreate_ok d LCommandPool 0 (gp_name g) log1 strict _ P log2 pool Ho ltac:(discriminate) S1 E2) as (S2 & U2 & Z2).
  assert (X2 : log2 = log1 ++ [LCreated LCommandPool pool 0 (gp_name g); LRegistered LCommandPool pool (gp_name g)]). { unfold lcreate in E2. destruct (d log1 LCommandPool); [|discriminate]. now injection E2 as <- ->. } clear E2.
  assert (Or : orphan L pool). { apply closed_orphan; [exact Cl|]. intros I. apply (st_fresh _ _ _ _ _ S2). cbn. now right. }
  destruct (lcreate d LFence 0 ng log2) as [log3 [fh|]] eqn:E3.
  2: { pose proof (lcreate_no _ _ _ _ _ _ _ _ _ S2 E3) as S3. unfold lcreate in E3. destruct (d log2 LFence); [discriminate|]. injection E3 as <-.
       exists ([LCreated LQueryPool q 0 nq; LRegistered LQueryPool q nq; LCreated LCommandPool pool 0 (gp_name g); LRegistered LCommandPool pool (gp_name g); LRefused LFence; LUnregistered pool; LDestroyed LCommandPool pool; LUnregistered q; LDestroyed LQueryPool q]). split.
       - unfold ldestroy. rewrite (proj2 (N.eqb_neq _ _) Z1), (proj2 (N.eqb_neq _ _) Z2). subst log2 log1. rewrite <- !app_assoc. reflexivity.
       - left. split.
         + intros (h & p & n & H). cbn in H. repeat (destruct H as [H|H]; [discriminate H|]). exact H.
         + apply (St_destroyed strict _ LQueryPool q 0 nq L P); [discriminate| |exact U1].
           apply (St_pool strict strict _ pool 0 (gp_name g) [] _ P S3); [intros y []| |exact U2|now left]. intros y [<-|I]; [discriminate|exact (Or y I)]. }
  destruct (lcreate_ok d LFence 0 ng log2 strict _ P log3 fh Ho ltac:(discriminate) S2 E3) as (S3 & U3 & Z3).
  assert (X3 : log3 = log2 ++ [LCreated LFence fh 0 ng; LRegistered LFence fh ng]). { unfold lcreate in E3. destruct (d log2 LFence); [|discriminate]. now injection E3 as <- ->. } clear E3.
  set (fence := {| lf_handle := fh; lf_waited := false |}).
  assert (UM : all_unused P (things_members (gp_name g) q pool [] fence)). { intros x I. cbn in I. destruct I as [I|[I|[I|[]]]]; subst x; assumption. }
  destruct (lcreate d LSemaphore 0 ng log3) as [log4 [s|]] eqn:E4.
  2: { pose proof (lcreate_no _ _ _ _ _ _ _ _ _ S3 E4) as S4. unfold lcreate in E4. destruct (d log3 LSemaphore); [discriminate|]. injection E4 as <-.
       exists ([LCreated LQueryPool q 0 nq; LRegistered LQueryPool q nq; LCreated LCommandPool pool 0 (gp_name g); LRegistered LCommandPool pool (gp_name g); LCreated LFence fh 0 ng; LRegistered LFence fh ng; LRefused LSemaphore; LUnregistered fh; LDestroyed LFence fh; LUnregistered pool; LDestroyed LCommandPool pool; LUnregistered q; LDestroyed LQueryPool q]). split.
       - unfold destroy_members, ldestroy, fence. cbn [lf_handle fold_left]. rewrite (proj2 (N.eqb_neq _ _) Z1), (proj2 (N.eqb_neq _ _) Z2), (proj2 (N.eqb_neq _ _) Z3). subst log3 log2 log1. rewrite <- !app_assoc. reflexivity.
       - left. split.
         + intros (h & p & n & H). cbn in H. repeat (destruct H as [H|H]; [discriminate H|]). exact H.
         + apply (members_ok strict strict _ (gp_name g) q pool [] fence [] L P S4 UM); [intros y []|exact Or|now left]. }
  destruct (lcreate_ok d LSemaphore 0 ng log3 strict _ P log4 s Ho ltac:(discriminate) S3 E4) as (S4 & U4 & Z4).
  assert (X4 : exists e, log4 = log ++ e /\ In (LCreated LSemaphore s 0 ng) e).
  { unfold lcreate in E4. destruct (d log3 LSemaphore); [|discriminate]. injection E4 as <- ->. subst log3 log2 log1. rewrite <- !app_assoc. eexists. split; [reflexivity|]. rewrite !in_app_iff. right; right; right. now left. }
  clear E4 X1 X2 X3. destruct X4 as (e4 & X4 & I4).
  assert (Late : forall log' L', ext log4 log' -> St false log' L' P -> L' = mkt LSemaphore s 0 ng :: L -> exists evs, log' = log ++ evs /\
      ((~ has_semaphore evs /\ St strict log' L P) \/ (exists h, In (LCreated LSemaphore h 0 ng) evs /\ unused P h /\ St false log' (mkt LSemaphore h 0 ng :: L) P))).
  { intros log' L' [e ->] T ->. exists (e4 ++ e). split; [subst log4; now rewrite <- app_assoc|]. right. exists s. split; [apply in_or_app; now left|]. split; assumption. }
  destruct (lcreate d LBuffer pool ng log4) as [log5 [b|]] eqn:E5.
  2: { pose proof (lcreate_no _ _ _ _ _ _ _ _ _ S4 E5) as S5. apply ext_create in E5. eapply Late; [eapply ext_trans; [exact E5|apply ext_members]| |reflexivity].
       apply (members_ok false strict _ (gp_name g) q pool [] fence [] _ P).
       - eapply St_perm; [|exact S5]. apply (Permutation_middle (things_members (gp_name g) q pool [] fence) L).
       - exact UM.
       - intros y [].
       - intros y [<-|I]; [discriminate|exact (Or y I)].
       - now right. }
  assert (Po : has_pool (mkt LSemaphore s 0 ng :: mkt LFence fh 0 ng :: mkt LCommandPool pool 0 (gp_name g) :: mkt LQueryPool q 0 nq :: L) pool). { exists 0, (gp_name g). right; right; now left. }
  destruct (lcreate_ok d LBuffer pool ng log4 strict _ P log5 b Ho ltac:(intros _; exact Po) S4 E5) as (S5 & U5 & Z5). apply ext_create in E5.
  set (sb := [mkt LBuffer b pool ng; mkt LSemaphore s 0 ng; mkt LFence fh 0 ng; mkt LCommandPool pool 0 (gp_name g); mkt LQueryPool q 0 nq]).
  assert (S6 : St strict (log5 ++ [LBegun b; LEnded b]) (sb ++ L) P).
  { replace (log5 ++ [LBegun b; LEnded b]) with ((log5 ++ [LBegun b]) ++ [LEnded b]) by now rewrite <- app_assoc.
    assert (T : St strict (log5 ++ [LBegun b]) (sb ++ L) P).
    { apply St_neutral; [exact Logic.I| |exact S5]. split; [exact (lives_in _ _ _ _ _ _ _ _ S5 (or_introl eq_refl))|apply (unused_not _ _ _ _ _ _ S5 U5); discriminate]. }
    apply St_neutral; [exact Logic.I| |exact T]. split; [exact (lives_in _ _ _ _ _ _ _ _ T (or_introl eq_refl))|apply (unused_not _ _ _ _ _ _ T U5); discriminate]. }
  assert (E6 : ext log4 (log5 ++ [LBegun b; LEnded b])) by (eapply ext_trans; [exact E5|apply ext_snoc]).
  revert S6 E6. generalize (log5 ++ [LBegun b; LEnded b]) as log6. intros log6 S6 E6. clear E5 S5 log5.
  assert (Un : forall passes log', ext log6 log' -> St strict log' (flat_map (things_pass pool) passes ++ sb ++ L) P -> all_unused P (flat_map (things_pass pool) passes) ->
    exists evs, destroy_members q pool passes fence log' = log ++ evs /\
      ((~ has_semaphore evs /\ St strict (destroy_members q pool passes fence log') L P) \/ (exists h, In (LCreated LSemaphore h 0 ng) evs /\ unused P h /\ St false (destroy_members q pool passes fence log') (mkt LSemaphore h 0 ng :: L) P))).
  { intros passes log' X T U. eapply Late; [eapply ext_trans; [exact E6|]; eapply ext_trans; [exact X|apply ext_members]| |reflexivity].
    apply (members_ok false strict _ (gp_name g) q pool passes fence [mkt LBuffer b pool ng] _ P).
    - eapply St_perm; [|exact T]. unfold things_members, sb. cbn [app].
      etransitivity; [|apply perm_skip; rewrite <- app_assoc; apply Permutation_app_head; cbn; apply Permutation_refl].
      change (mkt LFence (lf_handle fence) 0 (gp_name g ++ "/Graph")) with (mkt LFence fh 0 ng). symmetry.
      etransitivity; [apply Permutation_middle|]. apply Permutation_app_head.
      transitivity (mkt LFence fh 0 ng :: mkt LCommandPool pool 0 (gp_name g) :: mkt LBuffer b pool ng :: mkt LSemaphore s 0 ng :: mkt LQueryPool q 0 nq :: L).
      + do 2 apply perm_skip. etransitivity; [apply perm_swap|]. apply perm_skip. apply perm_swap.
      + etransitivity; [apply perm_skip; apply perm_swap|]. etransitivity; [apply perm_swap|]. apply perm_skip.
        etransitivity; [apply perm_skip; apply perm_swap|]. apply perm_swap.
    - intros x I. unfold things_members in I. rewrite !in_app_iff in I. destruct I as [I|[I|I]]; [apply UM; apply in_or_app; left; exact I|now apply U|apply UM; apply in_or_app; right; exact I].
    - intros y [<-|[]]. split; [reflexivity|split; [reflexivity|exact U5]].
    - intros y [<-|I]; [discriminate|exact (Or y I)].
    - now right. }
  destruct (gp_resources_throw g).
  { apply Un; [apply ext_refl|exact S6|intros x []]. }
  assert (Po2 : has_pool (sb ++ L) pool). { exists 0, (gp_name g). right; right; right; now left. }
  pose proof (create_lpasses_ok d pool (sb ++ L) P strict Ho Po2 (gp_passes g) [] log6 S6 ltac:(intros x [])) as CP.
  pose proof (ext_create_lpasses d pool (gp_passes g) [] log6) as EP.
  destruct (create_lpasses d pool (gp_passes g) [] log6) as [[log7 passes] ok]. destruct CP as [C1 C2]. cbn in EP.
  destruct ok; [|now apply Un]. destruct (gp_initialise_throw g); [now apply Un|]. split.
  - eapply St_perm; [|exact C1]. unfold things_graph, things_members, graph_semaphore, graph_buffer, sb. cbn [lg_semaphore lg_buffer lg_pool lg_name lg_passes lg_queries lg_fence app].
    rewrite <- app_assoc. cbn [app]. fold ng nq. fold fence. change (lf_handle fence) with fh.
    transitivity (mkt LSemaphore s 0 ng :: mkt LBuffer b pool ng :: mkt LFence fh 0 ng :: mkt LCommandPool pool 0 (gp_name g) :: mkt LQueryPool q 0 nq :: flat_map (things_pass pool) passes ++ L).
    + etransitivity; [apply Permutation_app_comm|]. cbn. etransitivity; [apply perm_swap|]. do 5 apply perm_skip. apply Permutation_app_comm.
    + do 3 apply perm_skip. change (Permutation ([mkt LCommandPool pool 0 (gp_name g); mkt LQueryPool q 0 nq] ++ flat_map (things_pass pool) passes ++ L) (flat_map (things_pass pool) passes ++ [mkt LCommandPool pool 0 (gp_name g); mkt LQueryPool q 0 nq] ++ L)).
      rewrite !app_assoc. apply Permutation_app_tail. apply Permutation_app_comm.
  - intros x I. unfold things_graph, things_members, graph_semaphore, graph_buffer in I. cbn [lg_semaphore lg_buffer lg_pool lg_name lg_passes lg_queries lg_fence app In] in I.
    destruct I as [I|[I|[I|I]]]; [subst x; exact U4|subst x; exact U5|subst x; exact U3|]. apply in_app_or in I as [I|I]; [now apply C2|apply UM; apply in_or_app; right; exact I].
Qed.
