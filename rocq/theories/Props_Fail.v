(* C102: what remains of a request the driver refused. *)
From Verif Require Import Spec_Fail Proof_Layout Proof_Res Proof_Res2 Proof_Res3 Proof_Res4 Props_Res Proof_Fail Proof_Fail2 Proof_Fail3 Proof_Fail4.
From Coq Require Import Lia.
Local Open Scope N_scope.

(* The full claim: after a request that threw, a later request of the same object asks the driver again, and succeeds when the driver accepts. It is refuted
   below for each kind of object. *)

(* When the driver refuses nothing, nothing throws and the resources are those of the theorems of C31, C32, C55. *)
Theorem C102_no_refusal : forall devices hs (ops : list (res_op * answers)), Forall (fun o => accepts (snd o)) ops ->
  fail_run devices hs new_rsystem ops = res_run devices hs new_rsystem (map fst ops) /\
  forall o l, accepts l ->
    snd (fail_step devices hs (fail_run devices hs new_rsystem ops) o l) = Returned (snd (res_step devices hs (res_run devices hs new_rsystem (map fst ops)) o)).
Proof.
  intros devices hs ops F. assert (E := accept_run devices hs ops new_rsystem (sinv_new hs) F). split; [exact E|]. intros o l A. rewrite E.
  destruct (accept_step devices hs (res_run devices hs new_rsystem (map fst ops)) o l (sinv_run hs devices _ _ (sinv_new hs)) A) as (l' & _ & ->). reflexivity.
Qed.
Print Assumptions C102_no_refusal.
Example C102_no_refusal_applies : Forall (fun o : res_op * answers => accepts (snd o)) (map (fun o => (o, [true; true])) history0).
Proof. apply Forall_forall. intros o H. apply in_map_iff in H. destruct H as (x & <- & _). intros b [<-|[<-|[]]]; reflexivity. Qed.

(* A call throws exactly when one of the calls it makes to the driver is refused, whatever the state. *)
Theorem C102_reported_partial : forall devices hs s o l,
  snd (fail_step devices hs s o l) = Threw <-> refused l (snd (fst (fail_step devices hs s o l))).
Proof.
  intros devices hs s o l. pose proof (met_step devices hs s o l) as (used & E & M). rewrite <- threw_spec, <- M. split.
  - intros H. exists used. split; assumption.
  - intros (used' & E' & H). assert (E2 := eq_trans (eq_sym E) E'). apply app_inv_tail in E2. rewrite E2. exact H.
Qed.
Print Assumptions C102_reported_partial.
Example C102_reported_applies : exists l', snd (fail_step all_devices hs0 new_rsystem (RCreateImage 1 1 10) [true; false]) = Threw /\ l' = @nil bool /\ refused [true; false] l'.
Proof. exists []. split; [vm_compute; reflexivity|]. split; [reflexivity|]. exists [true; false]. split; [reflexivity|right; left; reflexivity]. Qed.

(* Whatever is refused, no object is created twice under a handle, none is destroyed twice, none before it is created. *)
Theorem C102_destroyed_at_most_once_partial : forall devices hs ops,
  let log := driver_log (fail_run devices hs new_rsystem ops) in
  NoDup (created log) /\ NoDup (destroyed log) /\ (forall l1 x l2, log = l1 ++ Destroyed x :: l2 -> In x (created l1)).
Proof.
  intros devices hs ops log. pose proof (fi_log _ (finv_run devices hs ops new_rsystem finv_new)) as L.
  split; [exact (li_nodup _ _ L)|]. split; [exact (li_dnodup _ _ L)|exact (li_causal _ _ L)].
Qed.
Print Assumptions C102_destroyed_at_most_once_partial.
Example C102_destroyed_applies : driver_log (fail_run all_devices hs0 new_rsystem
  [(RCreateImage 1 1 10, [true; false]); (RCreateView 1 1 20 10, []); (RCreateQuad 1 1 q0, [true; true; false]); (RCreateSampler 1 1 d0, [false]); (RDestroyCache 1, [])]) =
  [Created (OImage 10) 1; Created (OView 20) 2; Created (OQuad q0) 3; Created (OQuadMemory 3) 4; Destroyed 2].
Proof. vm_compute. reflexivity. Qed.

(* A request, refused or not, leaves what is held for the other objects and destroys nothing. *)
Theorem C102_others_unaffected_partial : forall devices hs s o l, is_request o ->
  (forall k r, ~ concerns hs o k r -> entry (fst (fst (fail_step devices hs s o l))) k r = entry s k r) /\
  destroyed (driver_log (fst (fst (fail_step devices hs s o l)))) = destroyed (driver_log s).
Proof.
  intros devices hs s o l R. split; [intros k r Nc; apply entry_step; assumption|]. destruct (oc_step devices hs s o l R) as (more & -> & D).
  unfold destroyed in *. rewrite flat_map_app, D, app_nil_r. reflexivity.
Qed.
Print Assumptions C102_others_unaffected_partial.
Example C102_others_applies :
  let s := res_run all_devices hs0 new_rsystem [RCreateImage 1 1 10; RCreateView 1 1 20 10; RCreateSampler 1 1 d0] in
  let s' := fst (fst (fail_step all_devices hs0 s (RCreateView 1 1 21 10) [false])) in
  entry s' (1, 1) (RView 21) = Some 0 /\ entry s' (1, 1) (RView 20) = Some 3 /\ entry s' (1, 1) (RSampler (samplerHash hs0 d0)) = Some 4.
Proof. vm_compute. auto. Qed.

(* A view whose first request was refused is null for ever: every later request, by any cache of any context, returns the null handle without asking the
   driver nor reporting anything. *)
Theorem C102_view_refuted : forall devices hs before rc cx v img l, never (asks_view v) before ->
  let s := fail_run devices hs new_rsystem before in
  snd (fail_step devices hs s (RCreateView rc cx v img) l) = Threw ->
  forall after rc' cx' img' l',
    let s' := fail_run devices hs (fst (fst (fail_step devices hs s (RCreateView rc cx v img) l))) after in
    snd (fail_step devices hs s' (RCreateView rc' cx' v img') l') = Returned 0 /\
    driver_log (fst (fst (fail_step devices hs s' (RCreateView rc' cx' v img') l'))) = driver_log s'.
Proof.
  intros devices hs before rc cx v img l Nv s T after rc' cx' img' l' s'.
  pose proof (at_view_run devices hs v None before new_rsystem (fun _ => Nv) (at_view_new v)) as A.
  pose proof (refused_view devices hs _ rc cx v img l A T) as B.
  assert (C : at_view v (Some 0) s') by (apply at_view_run; [discriminate|exact B]).
  destruct (view_again devices hs v 0 s' rc' cx' img' l' C) as (E1 & E2 & _). auto.
Qed.
Print Assumptions C102_view_refuted.
Example C102_view_applies : never (asks_view 21) [(RCreateImage 1 1 10, []); (RCreateView 1 1 20 10, [])] /\
  snd (fail_step all_devices hs0 (fail_run all_devices hs0 new_rsystem [(RCreateImage 1 1 10, []); (RCreateView 1 1 20 10, [])]) (RCreateView 1 1 21 10) [false]) = Threw.
Proof. split; [repeat constructor; cbn; auto; discriminate|vm_compute; reflexivity]. Qed.

(* The same for an image: every later request returns one handle without asking the driver; that handle is null when the creation was refused. *)
Theorem C102_image_refuted : forall devices hs before rc cx i l, never (asks_image i) before ->
  let s := fail_run devices hs new_rsystem before in
  snd (fail_step devices hs s (RCreateImage rc cx i) l) = Threw ->
  exists vk, (forall r, l = false :: r -> vk = 0) /\ forall after rc' cx' l',
    let s' := fail_run devices hs (fst (fst (fail_step devices hs s (RCreateImage rc cx i) l))) after in
    snd (fail_step devices hs s' (RCreateImage rc' cx' i) l') = Returned vk /\
    driver_log (fst (fst (fail_step devices hs s' (RCreateImage rc' cx' i) l'))) = driver_log s'.
Proof.
  intros devices hs before rc cx i l Nv s T.
  pose proof (at_image_run devices hs i None before new_rsystem (fun _ => Nv) (at_image_new i)) as A.
  destruct (refused_image devices hs _ rc cx i l A T) as (p & B). exists (fst p). split.
  - intros r ->. pose proof (refused_image_first devices hs _ rc cx i r A) as [F _]. destruct B as [F' _]. fold s in F, F'. rewrite F in F'. injection F' as <-. reflexivity.
  - intros after rc' cx' l' s'. assert (C : at_image i (Some p) s') by (apply at_image_run; [discriminate|exact B]).
    destruct (image_again devices hs i p s' rc' cx' l' C) as (E1 & E2 & _). auto.
Qed.
Print Assumptions C102_image_refuted.
Example C102_image_applies : never (asks_image 10) [(RCreateImage 1 1 11, [])] /\
  snd (fail_step all_devices hs0 (fail_run all_devices hs0 new_rsystem [(RCreateImage 1 1 11, [])]) (RCreateImage 1 1 10) [false]) = Threw.
Proof. split; [repeat constructor; cbn; auto; discriminate|vm_compute; reflexivity]. Qed.

(* When the memory of an image is refused, the image stays for ever without memory, later requests return it as if it were usable, and nothing destroys it. *)
Theorem C102_image_without_memory_refuted : forall devices hs before rc cx i r, never (asks_image i) before -> devices cx = true ->
  let s := fail_run devices hs new_rsystem before in
  exists vk, forall after,
    let s' := fail_run devices hs (fst (fst (fail_step devices hs s (RCreateImage rc cx i) (true :: false :: r)))) after in
    In (Created (OImage i) vk) (driver_log s') /\ alive s' vk /\ (forall m, ~ In (Created (OImageMemory i) m) (driver_log s')) /\
    forall rc' cx' l', snd (fail_step devices hs s' (RCreateImage rc' cx' i) l') = Returned vk.
Proof.
  intros devices hs before rc cx i r Nv D s.
  pose proof (at_image_run devices hs i None before new_rsystem (fun _ => Nv) (at_image_new i)) as A. fold s in A.
  destruct (refused_memory devices hs s rc cx i r A D) as [B L]. exists (rh_next (sy_handler s)). intros after s'.
  assert (I0 : finv (sy_handler s)) by apply (finv_run devices hs before new_rsystem finv_new).
  assert (I1 : finv (sy_handler s')) by (apply finv_run, finv_step, I0).
  assert (C : at_image i (Some (rh_next (sy_handler s), 0)) s') by (apply at_image_run; [discriminate|exact B]).
  assert (V : live (driver_log s') (OImage i) (rh_next (sy_handler s))).
  { destruct (fi_claim _ I1 (SImage i) (rh_next (sy_handler s))) as (o & Lb & A1); [cbn; rewrite (proj1 C); reflexivity|pose proof (li_next _ _ (fi_log _ I0)); lia|].
    destruct o; cbn in Lb; try contradiction. subst. exact A1. }
  destruct V as [V1 V2]. split; [exact V1|]. split; [split; [exact (in_created _ _ _ V1)|exact V2]|]. split.
  - intros m H. assert (M : mem_in i (driver_log s')) by (exists m; exact H). apply (mem_run devices hs i _ after _ B) in M. rewrite L in M.
    apply mem_snoc in M; [|discriminate]. apply (mem_run_never devices hs i before new_rsystem Nv) in M. destruct M as (x & []).
  - intros rc' cx' l'. apply (image_again devices hs i _ s' rc' cx' l' C).
Qed.
Print Assumptions C102_image_without_memory_refuted.
Example C102_image_without_memory_applies : never (asks_image 10) [(RCreateImage 1 1 11, [])] /\ all_devices 1 = true.
Proof. split; [repeat constructor; cbn; auto; discriminate|reflexivity]. Qed.

(* A sampler refused once is null as long as its cache lives; a quad refused once makes every later request dereference a null pointer. *)
Theorem C102_sampler_refuted : forall devices hs s rc cx d l, snd (fail_step devices hs s (RCreateSampler rc cx d) l) = Threw ->
  forall after l', keeps_cache rc (map fst after) ->
    let s' := fail_run devices hs (fst (fst (fail_step devices hs s (RCreateSampler rc cx d) l))) after in
    snd (fail_step devices hs s' (RCreateSampler rc cx d) l') = Returned 0 /\
    driver_log (fst (fst (fail_step devices hs s' (RCreateSampler rc cx d) l'))) = driver_log s'.
Proof.
  intros devices hs s rc cx d l T after l' K s'. apply sampler_same.
  apply (keep_fail_run cc_samplers hs devices (rc, cx)); [left; reflexivity|exact K|]. apply sampler_refused, T.
Qed.
Print Assumptions C102_sampler_refuted.
Theorem C102_quad_refuted : forall devices hs s rc cx q l, snd (fail_step devices hs s (RCreateQuad rc cx q) l) = Threw ->
  forall after l', keeps_cache rc (map fst after) ->
    snd (fail_step devices hs (fail_run devices hs (fst (fst (fail_step devices hs s (RCreateQuad rc cx q) l))) after) (RCreateQuad rc cx q) l') = Undefined.
Proof.
  intros devices hs s rc cx q l T after l' K. apply quad_same.
  apply (keep_fail_run cc_buffers hs devices (rc, cx)); [right; reflexivity|exact K|]. apply quad_refused, T.
Qed.
Print Assumptions C102_quad_refuted.
Example C102_sampler_quad_apply : snd (fail_step all_devices hs0 new_rsystem (RCreateSampler 1 1 d0) [false]) = Threw /\
  snd (fail_step all_devices hs0 new_rsystem (RCreateQuad 1 1 q0) [true; true; true; false]) = Threw /\ keeps_cache 1 (map fst [(RCreateImage 1 1 10, @nil bool)]).
Proof. split; [vm_compute; reflexivity|]. split; [vm_compute; reflexivity|]. repeat constructor. discriminate. Qed.

(* The part that holds: once the cache is destroyed, samplers and quads are created again, and succeed when the driver accepts. *)
Theorem C102_new_cache_partial : forall devices hs s rc cx l, accepts l ->
  let s' := fst (fst (fail_step devices hs s (RDestroyCache rc) [])) in
  (forall d, exists x, snd (fail_step devices hs s' (RCreateSampler rc cx d) l) = Returned x /\
     In (Created (OSampler d) x) (driver_log (fst (fst (fail_step devices hs s' (RCreateSampler rc cx d) l))))) /\
  (forall q, exists x, snd (fail_step devices hs s' (RCreateQuad rc cx q) l) = Returned x /\
     In (Created (OQuad q) x) (driver_log (fst (fst (fail_step devices hs s' (RCreateQuad rc cx q) l))))).
Proof.
  intros devices hs s rc cx l A s'. pose proof (get_gone (rc, cx) (sy_caches s)) as G. cbn [fst] in G.
  assert (C : get_cache (rc, cx) (sy_caches s') = empty_ccache) by exact G. clearbody s'. clear G.
  split; [intros d|intros q]; exists (rh_next (sy_handler s')); cbn [fail_step]; unfold cf_createSampler, cf_createQuad; rewrite C; cbn [mfind cc_samplers cc_buffers empty_ccache].
  - destruct (accept_sampler (sy_handler s') d l A) as (l' & _ & ->). split; [reflexivity|]. cbn. apply in_or_app. right. left. reflexivity.
  - destruct (accept_quad (sy_handler s') (devices cx) q l A) as (l' & _ & ->). unfold rh_createQuad. cbn [vk_create]. destruct (devices cx); (split; [reflexivity|]); cbn.
    + apply in_or_app. left. apply in_or_app. right. left. reflexivity.
    + apply in_or_app. right. left. reflexivity.
Qed.
Print Assumptions C102_new_cache_partial.
Example C102_new_cache_applies :
  let s := fail_run all_devices hs0 new_rsystem [(RCreateSampler 1 1 d0, [false]); (RDestroyCache 1, [])] in snd (fail_step all_devices hs0 s (RCreateSampler 1 1 d0) []) = Returned 1.
Proof. vm_compute. reflexivity. Qed.
