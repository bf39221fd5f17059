(* C105: the leaks reported when the resource handler is destroyed. *)
From Coq Require Import Lia Permutation.
From Verif Require Import Spec_Leak Proof_Layout Proof_Res Proof_Res2 Proof_Res3 Proof_Res4 Props_Res Proof_Leak.
Local Open Scope N_scope.
Local Open Scope list_scope.

(* When the driver refuses nothing: whatever was created and destroyed through whatever caches, the messages are those of the objects that are still
   alive, one each, with their kinds and names, in some order. *)
Theorem C105_reported_partial : forall nm devices hs ops,
  let s := res_run devices hs new_rsystem ops in
  Permutation (rh_leaks nm (sy_handler s)) (flat_map (told_of nm) (survivors (driver_log s))).
Proof.
  intros nm devices hs ops s. pose proof (sinv_run hs devices ops _ (sinv_new hs)) as S. fold s in S. pose proof (si_h _ _ S) as Hi.
  assert (D : distinct (sy_handler s)) by (apply ds_run; [apply sinv_new|exact ds_new]).
  rewrite (leaks_items nm _ Hi D), told_items. apply Permutation_map. exact (items_alive _ Hi D).
Qed.
Print Assumptions C105_reported_partial.
Definition some_names : namings :=
  {| nm_image := fun i => if N.eqb i 10 then "shadows"%string else "other"%string; nm_view := fun _ => "view"; nm_sampler := fun _ => "sampler"; nm_buffer := fun _ => "quad" |}%string.
Example C105_reported_applies :
  rh_leaks some_names (sy_handler (res_run all_devices hs0 new_rsystem [RCreateImage 1 1 11; RCreateView 1 1 20 10; RCreateQuad 2 1 q0; RDestroyCache 1])) =
  ["Leaked [VkImage](shadows)"; "Leaked [VkDeviceMemory](quad)"; "Leaked [VkBuffer](quad)"]%string.
Proof. vm_compute. reflexivity. Qed.

Lemma substring_all : forall n s, (String.length s <= n)%nat -> substring 0 n s = s.
Proof. induction n as [|n IH]; intros [|c s] L; cbn in *; try reflexivity; [lia|]. rewrite IH by lia. reflexivity. Qed.
(* A message has the kind and the name, cut after 900 characters. *)
Theorem C105_message : forall kind name,
  ((String.length name <= 900)%nat -> leak_line kind name = ("Leaked [" ++ kind ++ "](" ++ name ++ ")")%string) /\
  forall rest, String.length name = 900%nat -> leak_line kind (name ++ rest) = leak_line kind name.
Proof.
  intros kind name. split; [intros L; unfold leak_line; rewrite substring_all by exact L; reflexivity|]. intros rest L. unfold leak_line. rewrite <- L.
  assert (E : forall a b, substring 0 (String.length a) (a ++ b) = substring 0 (String.length a) a) by (induction a as [|c a IH]; intros b; cbn; [destruct b; reflexivity|rewrite IH; reflexivity]).
  rewrite E. reflexivity.
Qed.
Print Assumptions C105_message.
Example C105_message_applies : (String.length "shadows" <= 900)%nat. Proof. cbn. lia. Qed.

(* [survivors] are the objects created and not destroyed. *)
Theorem C105_survivors : forall log o x, In (o, x) (survivors log) <-> In (Created o x) log /\ ~ In x (destroyed log).
Proof. exact in_survivors. Qed.
Print Assumptions C105_survivors.
Example C105_survivors_applies : survivors [Created (OImage 1) 5; Created (OView 2) 6; Destroyed 5] = [(OView 2, 6)].
Proof. reflexivity. Qed.

(* Nothing is logged exactly when everything was destroyed. *)
Theorem C105_silent_partial : forall nm devices hs ops,
  let s := res_run devices hs new_rsystem ops in
  rh_leaks nm (sy_handler s) = [] <-> (forall x, ~ alive s x).
Proof.
  intros nm devices hs ops s. pose proof (sinv_run hs devices ops _ (sinv_new hs)) as S. fold s in S. pose proof (si_h _ _ S) as Hi.
  pose proof (C105_reported_partial nm devices hs ops) as P. cbv zeta in P. fold s in P. split.
  - intros E x [A B]. rewrite E in P. apply Permutation_nil in P. apply created_in in A as (o & A).
    assert (Q : forall o y, live (driver_log s) o y -> told_of nm (o, y) = []).
    { intros o' y L. apply in_survivors in L. destruct (told_of nm (o', y)) as [|t r] eqn:T; [reflexivity|]. exfalso.
      assert (H : In t (flat_map (told_of nm) (survivors (driver_log s)))) by (apply in_flat_map; exists (o', y); split; [exact L|rewrite T; left; reflexivity]).
      rewrite P in H. exact H. }
    assert (L : live (driver_log s) o x) by (split; assumption). pose proof (Q _ _ L) as T. destruct o as [i|i|v|d|q|b]; try discriminate T.
    destruct (in_loc _ Hi _ _ L) as (v & E'). cbn in E'. destruct (in_img _ Hi _ _ _ E') as [L' _]. apply Q in L'. discriminate L'.
  - intros H. destruct (survivors (driver_log s)) as [|[o x] r] eqn:E.
    + apply Permutation_sym, Permutation_nil in P. exact P.
    + exfalso. assert (I1 : In (o, x) (survivors (driver_log s))) by (rewrite E; left; reflexivity). apply in_survivors in I1 as [A B].
      apply (H x). split; [exact (in_created _ _ _ A)|exact B].
Qed.
Print Assumptions C105_silent_partial.
Example C105_silent_applies :
  rh_leaks some_names (sy_handler (res_run all_devices hs0 new_rsystem history0)) = [] /\ length (created (driver_log (res_run all_devices hs0 new_rsystem history0))) = 7%nat.
Proof. split; vm_compute; reflexivity. Qed.

(* So a disciplined history (C31) whose caches are destroyed logs nothing. *)
Theorem C105_disciplined_partial : forall nm devices hs ops, disciplined devices hs new_rsystem ops ->
  sy_caches (res_run devices hs new_rsystem ops) = [] -> rh_leaks nm (sy_handler (res_run devices hs new_rsystem ops)) = [].
Proof. intros nm devices hs ops D E. apply C105_silent_partial. intros x [A B]. apply B. exact (no_leak hs devices ops D E x A). Qed.
Print Assumptions C105_disciplined_partial.
Example C105_disciplined_applies : disciplined all_devices hs0 new_rsystem history0 /\ sy_caches (res_run all_devices hs0 new_rsystem history0) = [].
Proof. split; apply C31_case. Qed.

(* The full claim, with refusals of the driver, is false both ways: an image that the driver never created is reported as leaked, and the buffer of a
   quad whose memory was refused is leaked and not reported. *)
Theorem C105_reported_never_created_refuted : forall nm devices hs, exists ops,
  let s := fail_run devices hs new_rsystem ops in
  sy_caches s = [] /\ created (driver_log s) = [] /\ rh_leaks nm (sy_handler s) = [leak_line "VkImage" (nm_image nm 10)].
Proof. intros nm devices hs. exists [(RCreateImage 1 1 10, [false]); (RDestroyCache 1, [])]. split; [reflexivity|]. split; reflexivity. Qed.
Print Assumptions C105_reported_never_created_refuted.
Theorem C105_lost_buffer_refuted : forall nm devices hs, devices 1 = true -> exists ops,
  let s := fail_run devices hs new_rsystem ops in
  sy_caches s = [] /\ survivors (driver_log s) = [(OQuad q0, 1)] /\ rh_leaks nm (sy_handler s) = [].
Proof.
  intros nm devices hs D. exists [(RCreateQuad 1 1 q0, [true; false]); (RDestroyCache 1, [])].
  cbn -[quadHash]. unfold cf_createQuad, rf_createQuad. cbn -[quadHash]. rewrite D. split; [reflexivity|]. split; reflexivity.
Qed.
Print Assumptions C105_lost_buffer_refuted.
Example C105_lost_applies : all_devices 1 = true. Proof. reflexivity. Qed.
