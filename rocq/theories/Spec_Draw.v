(* Specification vocabulary for the draws of the quad and mesh passes. *)
From Verif Require Export Model_Draw Spec_Pipe Spec_Passes Spec_Target.
From Coq Require Import ZArith.
Local Open Scope N_scope.

(* The pipeline bound when each draw of a command buffer runs, and whether it runs inside a render pass. *)
Fixpoint drawn_with (pipeline : N) (inside : bool) (l : list cmd) : list (N * bool) :=
  match l with
  | [] => []
  | CBindPipeline h :: r => drawn_with h inside r
  | CBeginRenderPass _ :: r => drawn_with pipeline true r
  | CEndRenderPass _ :: r => drawn_with pipeline false r
  | (CDraw _ _ | CDrawIndexed _ _ | CDrawIndirect _ _ _ | CDrawIndexedIndirect _ _ _) :: r => (pipeline, inside) :: drawn_with pipeline inside r
  | _ :: r => drawn_with pipeline inside r
  end.
(* Functions of the user that write no draw, no render pass and bind no pipeline. *)
Definition draws_nothing (f : rctx -> nat -> rctx * list cmd) : Prop := forall c i h b rest, drawn_with h b (snd (f c i) ++ rest) = drawn_with h b rest.

(* The last calls on the render pass begin it, in an area, and end it. *)
Definition begun_last (l : list tevent) (r : N) (area : N * N) : Prop := exists before framebuffer clear, l = before ++ [TBegin r framebuffer area clear; TEnd].
(* The description a render pass was created with. *)
Fixpoint made_with (l : list tevent) (r : N) : option rpinfo :=
  match l with [] => None | TRenderPass h info :: l => if N.eqb r h then Some info else made_with l r | _ :: l => made_with l r end.

(* The states a pipeline was created with. *)
Fixpoint states_of (l : list (N * gpipe)) (h : N) : option gpipe :=
  match l with [] => None | (h', s) :: l => if N.eqb h h' then Some s else states_of l h end.

(* Uses of one pass: its attachments do not change, its indices stay below their maximum. *)
Definition op_of_pass (images : list attach) (count : nat) (o : dop) : Prop :=
  match o with
  | DwRecord u _ _ => rp_images (us_pass u) = images /\ (rp_index (us_pass u) < count)%nat
  | DwReset i _ => (i < count)%nat
  end.
Definition only_records (ops : list dop) : Prop := forall i c, ~ In (DwReset i c) ops.
(* One pass index, or a quad with as many programs as indices, whose programs are not changed. *)
Definition separate_pipelines (k : pass_kind) (programs count : nat) (ops : list dop) : Prop :=
  count = 1%nat \/ (k = Quad /\ programs <> 1%nat /\ only_records ops).
(* A rectangle holds a render area, which starts at the origin; a render area holds a rectangle. *)
Definition covers (r : rect) (area : N * N) : Prop :=
  let '(x, y, (w, h)) := r in (x <= 0 /\ y <= 0 /\ Z.of_N (fst area) <= x + Z.of_N w /\ Z.of_N (snd area) <= y + Z.of_N h)%Z.
Definition inside (r : rect) (area : N * N) : Prop :=
  let '(x, y, (w, h)) := r in (0 <= x /\ 0 <= y /\ x + Z.of_N w <= Z.of_N (fst area) /\ y + Z.of_N h <= Z.of_N (snd area))%Z.
(* The extent of the attachment fits in the size. *)
Definition fits_in (size : N * N) (a : attach) : Prop :=
  let ext := level_extent (attach_view a 0) in fst ext <= fst size /\ snd ext <= snd size.

(* The operations on the pipelines of the pass (Model_Pipe.v) that a history makes. *)
Definition pipe_op (x : drawer) (o : dop) : pop :=
  match o with DwRecord u _ _ => ORecord 0 (rp_index (us_pass u)) (remade x u) | DwReset i c => OReset 0 i c end.
Fixpoint pipe_ops (x : drawer) (ops : list dop) : list pop :=
  match ops with [] => [] | o :: r => pipe_op x o :: pipe_ops (dw_step x o) r end.

(* How many primitives a draw makes with a topology: triangle lists and strips. *)
Definition primitives (topology vertices : N) : N :=
  if N.eqb topology TOPOLOGY_LIST then vertices / 3 else vertices - 2.

(* Compatible render passes: the same attachments have the same formats, and play the same part. *)
Definition compatible (a b : rpinfo) : Prop :=
  map ad_format (ri_descs a) = map ad_format (ri_descs b) /\ map fst (ri_colours a) = map fst (ri_colours b) /\ option_map fst (ri_depth a) = option_map fst (ri_depth b).
(* The views of a target have one format. *)
Definition one_format (images : list attach) (count : nat) : Prop :=
  forall a i j, In a (filter isTarget images) -> (i < count)%nat -> (j < count)%nat -> v_format (attach_view a i) = v_format (attach_view a j).
