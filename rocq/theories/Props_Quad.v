(* C99: the triangle of the quad passes covers the screen, its vertices fill the buffer. *)
From Verif Require Import Spec_Quad.
From Coq Require Import List Lqa QArith.
Import ListNotations.
Local Open Scope Q_scope.

(** C99: the three vertices make a triangle that holds every point of the screen. *)
Theorem C99_covers : forall q, exists p1 t1 p2 t2 p3 t3, quadVertices q = [(p1, t1); (p2, t2); (p3, t3)] /\
  forall x y, on_screen x y -> in_triangle p1 p2 p3 x y.
Proof.
  intro q. unfold quadVertices. do 6 eexists. split; [reflexivity|]. intros x y (H1 & H2 & H3 & H4).
  exists ((1 - y) * (1 # 4)), (1 - (1 - y) * (1 # 4) - (x + 1) * (1 # 4)), ((x + 1) * (1 # 4)).
  unfold inject_Z. cbn [fst snd]. repeat split; lra.
Qed.
Print Assumptions C99_covers.
Example C99_applies : on_screen (-(1)) 1 /\ on_screen (1 # 2) (-(1)) /\ ~ on_screen (3 # 2) 0.
Proof. repeat split; try (vm_compute; discriminate). intros (_ & H & _). apply H. reflexivity. Qed.
(* C99: the attributes lie inside the stride, do not overlap, and the three vertices fill the buffer. *)
Theorem C99_layout : forall q, 
  (N.of_nat (length (quadVertices q)) * quad_stride = quad_size)%N /\
  (forall l o, In (l, o) (quad_attributes q) -> (o + data_size <= quad_stride)%N) /\
  (forall l1 o1 l2 o2, In (l1, o1) (quad_attributes q) -> In (l2, o2) (quad_attributes q) -> l1 <> l2 -> (o1 + data_size <= o2 \/ o2 + data_size <= o1)%N) /\
  (qc_texCoords q = true <-> exists o, In (1%N, o) (quad_attributes q)).
Proof.
  intro q. split; [reflexivity|]. split; [|split].
  - intros l o [H|H]; [injection H as <- <-; discriminate|]. destruct (qc_texCoords q); [|destruct H]. destruct H as [H|[]]. injection H as <- <-. discriminate.
  - intros l1 o1 l2 o2 [A|A] [B|B] Ne; (try (destruct (qc_texCoords q); [|contradiction]));
    repeat match goal with H : In _ [_] |- _ => destruct H as [H|[]] end; try (injection A as <- <-); try (injection B as <- <-); try contradiction; vm_compute; intuition discriminate.
  - split.
    + intro H. exists data_size. unfold quad_attributes. rewrite H. right. left. reflexivity.
    + intros [o [H|H]]; [discriminate|]. destruct (qc_texCoords q); [reflexivity|destruct H].
Qed.
Print Assumptions C99_layout.

