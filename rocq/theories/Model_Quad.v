(* Model of the layout of the vertex buffer of the quad passes; its contents are quadVertices (Model_Res.v).
   Sources: source/RenderGraph/ResourceHandler.cpp:28-36, 319-324, 394-408. *)
From Verif Require Export Model_Res.
From Coq Require Import List.
Import ListNotations.
Local Open Scope N_scope.

(* ResourceHandler.cpp:19-36: Quad::Data is two floats of 4 bytes, Quad::Vertex two of them *)
Definition float_size : N := 4.
Definition data_size : N := 2 * float_size.
Definition vertex_size : N := 2 * data_size.
(* ResourceHandler.cpp:319-324: the size of the buffer *)
Definition quad_size : N := 3 * vertex_size.
(* ResourceHandler.cpp:394-399: the attributes (location, offset), each of format R32G32_SFLOAT *)
Definition quad_attributes (q : quad_config) : list (N * N) := (0, 0) :: (if qc_texCoords q then [(1, data_size)] else []).
(* ResourceHandler.cpp:401: the stride of the binding *)
Definition quad_stride : N := vertex_size.
