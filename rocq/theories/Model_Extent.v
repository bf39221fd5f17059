(* Model of the extents of images and views.
   Sources: source/RenderGraph/FrameGraph.cpp:344-361. *)
From Verif Require Export Model_Record.
Local Open Scope N_scope.

(* FrameGraph.cpp:344-352: getExtent of an image and of a view: (width, height, depth) *)
Definition getExtent (im : image) : N * N * N := (i_width im, i_height im, i_depth im).
Definition getExtent_view (v : view) : N * N * N := getExtent (v_image v).
(* FrameGraph.cpp:354-361: getMipExtent; a shift by 32 or more is undefined in C++ and not represented: levels are below 32 *)
Definition getMipExtent (v : view) : N * N * N :=
  let '(w, h, d) := getExtent (v_image v) in
  (N.shiftr w (r_mip (v_range v)), N.shiftr h (r_mip (v_range v)), N.shiftr d (r_mip (v_range v))).
