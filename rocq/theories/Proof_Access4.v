(* Proofs about the stages and accesses of barriers: the mipmaps generation. *)
From Verif Require Import Spec_Access Model_Mips Spec_Mips Proof_Layout Proof_Record Proof_Mips Proof_Access Proof_Access2 Proof_Access3.
Local Open Scope N_scope.

Lemma undefined_handled : handled L_UNDEFINED. Proof. cbn. tauto. Qed.
Lemma dst_coherent : coherent dst_state /\ scope_ok (ps_stage (ls_state dst_state)) (ps_access (ls_state dst_state)).
Proof. split; [apply (coherent_make L_TRANSFER_DST), transfer_dst_handled|apply (handled_scope L_TRANSFER_DST), transfer_dst_handled]. Qed.
Lemma src_coherent : coherent src_state /\ scope_ok (ps_stage (ls_state src_state)) (ps_access (ls_state src_state)).
Proof. split; [apply (coherent_make L_TRANSFER_SRC), transfer_src_handled|apply (handled_scope L_TRANSFER_SRC), transfer_src_handled]. Qed.
Lemma steady_level e im itype layer mip initial wanted c : coherent_context c -> coherent wanted -> scope_ok (ps_stage (ls_state wanted)) (ps_access (ls_state wanted)) ->
  handled initial -> steady (level_barrier e im itype layer mip initial wanted c).
Proof. intros C W S H. apply steady_barrier; auto. Qed.
Lemma steady_mip_loop e im itype layer next : coherent next -> scope_ok (ps_stage (ls_state next)) (ps_access (ls_state next)) ->
  forall n mip c, coherent_context c -> steady (mip_loop e im itype layer next n mip c).
Proof.
  intros W S. destruct dst_coherent as [D1 D2]. destruct src_coherent as [R1 R2]. induction n as [|n IH]; intros mip c C; cbn [mip_loop]; [apply steady_ret, C|].
  apply steady_seq; [|intro C4; apply IH, C4]. apply steady_seq; [apply steady_seq; [apply steady_seq|]|].
  - apply steady_level; [exact C|exact D1|exact D2|apply undefined_handled].
  - intro C1. apply steady_emit; [repeat constructor|exact C1].
  - intro C2. apply steady_level; [exact C2|exact W|exact S|apply transfer_src_handled].
  - intro C3. destruct (N.eqb _ _); apply steady_level; try assumption; apply transfer_dst_handled.
Qed.
Lemma steady_mip_layer e g v itype next layer c : coherent_graph g -> (itype = VT_3D <-> v_type v = VT_3D) -> coherent next ->
  scope_ok (ps_stage (ls_state next)) (ps_access (ls_state next)) -> coherent_context c -> steady (mip_layer e g v itype next layer c).
Proof.
  intros Hg T W S C. unfold mip_layer. cbv zeta. rewrite (vt_current g c (v_image v) (v_type v) itype) by tauto.
  destruct (current_coherent g c (v_image v) itype (level_range (i_format (v_image v)) layer 0) Hg C) as (K1 & K2 & K3).
  destruct (getCurrentLayoutState g c (v_image v) itype (level_range (i_format (v_image v)) layer 0)) as [c1 first]. cbn [fst snd] in K1, K2, K3.
  destruct src_coherent as [R1 R2]. apply steady_seq.
  - apply steady_barrier; [exact K1|exact R1|exact R2|]. destruct K3 as [K3|K3]; [left; rewrite K3; apply undefined_handled|right; rewrite adapt_get; exact K3].
  - intro C2. apply steady_mip_loop; assumption.
Qed.
Lemma steady_mips e g p v itype c : coherent_graph g -> (forall a, In a (rp_images p) -> declared a) -> (itype = VT_3D <-> v_type v = VT_3D) ->
  (let next := getNextLayoutState e g c p v in scope_ok (ps_stage (ls_state next)) (ps_access (ls_state next))) ->
  coherent_context c -> steady (generate_mips e g p v itype c).
Proof.
  intros Hg D T S C. unfold generate_mips. cbv zeta in S |- *. apply steady_all; [|exact C]. intros x c' _ C'. apply steady_mip_layer; try assumption. apply next_state_coherent; assumption.
Qed.
