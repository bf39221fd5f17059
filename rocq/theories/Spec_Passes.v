(* Specification vocabulary for the transfer, compute, quad and mesh passes: what Vulkan does with the recorded commands. *)
From Verif Require Export Model_Passes Spec_Mips.
Local Open Scope N_scope.

Definition add3 (p q : N * N * N) : N * N * N := (fst (fst p) + fst (fst q), snd (fst p) + snd (fst q), snd p + snd q).

(* Where a transfer reads or writes: texels of one level of some layers of an image, from a corner to
   the opposite one (excluded), or bytes of a buffer. *)
Inductive place :=
| Texels (image aspect level firstLayer layers : N) (from to : N * N * N)
| Bytes (buffer from to : N)
| BytesFrom (buffer from : N).

Definition texels (image : N) (sub : srange) (from to : N * N * N) : place :=
  Texels image (r_aspect sub) (r_mip sub) (r_layer sub) (r_layers sub) from to.
(* The source and the destination of a transfer command.  VkImageBlit gives two corners, VkImageCopy and
   VkBufferImageCopy an offset and an extent. *)
Definition moves (c : cmd) : list (place * place) :=
  match c with
  | CBlitImage src _ dst _ ss ds s0 s1 d0 d1 _ => [(texels src ss s0 s1, texels dst ds d0 d1)]
  | CCopyRegion src _ dst _ ss ds so doff ext => [(texels src ss so (add3 so ext), texels dst ds doff (add3 doff ext))]
  | CCopyBuffer src dst so doff size => [(Bytes src so (so + size), Bytes dst doff (doff + size))]
  | CBufferToImage b off im _ sub o ext => [(BytesFrom b off, texels im sub o (add3 o ext))]
  | CImageToBuffer im _ sub b off o ext => [(texels im sub o (add3 o ext), BytesFrom b off)]
  | _ => []
  end.
Definition all_moves (l : list cmd) : list (place * place) := flat_map moves l.

(* The texels of a view at an offset, with a size: first level of the view, all its layers. *)
Definition view_texels (v : view) (offset size : N * N * N) : place :=
  Texels (i_id (v_image v)) (r_aspect (v_range v)) (r_mip (v_range v)) (r_layer (v_range v)) (r_layers (v_range v)) offset (add3 offset size).
(* The bytes of a buffer attachment at an offset, with a size. *)
Definition attach_bytes (a : attach) (index : nat) (offset size : N) : place :=
  Bytes (attach_buffer a index) (ba_offset a + offset) (ba_offset a + offset + size).

(* The views of a copy pass, two by two. *)
Fixpoint pairs_of (l : list view) : list (view * view) :=
  match l with s :: d :: r => (s, d) :: pairs_of r | _ => [] end.

(* The destination scope of the last barrier on a buffer. *)
Definition scope_step (b : N) (s : pstate) (c : cmd) : pstate :=
  match c with
  | CBufferBarrier b' _ _ _ ds _ da => if N.eqb b b' then {| ps_access := da; ps_stage := ds |} else s
  | _ => s
  end.
Definition scope_after (s : pstate) (l : list cmd) (b : N) : pstate := fold_left (scope_step b) l s.

(* The group counts a compute configuration asks for: the callback when set, else the constant, else 1. *)
Definition asked (callback constant : option N) : N :=
  match callback, constant with Some n, _ => n | None, Some n => n | None, None => 1 end.
Definition asked_counts (cfg : compute_config) : N * N * N :=
  (asked (cc_getX cfg) (cc_x cfg), asked (cc_getY cfg) (cc_y cfg), asked (cc_getZ cfg) (cc_z cfg)).
Definition dispatches (l : list cmd) : list cmd :=
  filter (fun c => match c with CDispatch _ _ _ | CDispatchIndirect _ _ => true | _ => false end) l.
(* Functions that write no dispatch of their own. *)
Definition no_dispatch (f : rctx -> nat -> rctx * list cmd) : Prop := forall c i, dispatches (snd (f c i)) = [].

(* Draws: what is bound when each draw command runs.  0 is for nothing. *)
Inductive draw := Direct (vertices instances : N) | Indexed (indices instances : N) | Indirect (buffer offset stride : N) | IndexedIndirect (buffer offset stride : N).
Definition bound := (N * N)%type.   (* vertex buffer, index buffer *)
Fixpoint draws (b : bound) (l : list cmd) : list (bound * draw) :=
  match l with
  | [] => []
  | CBindVertexBuffer v :: r => draws (v, snd b) r
  | CBindIndexBuffer i :: r => draws (fst b, i) r
  | CDraw v n :: r => (b, Direct v n) :: draws b r
  | CDrawIndexed i n :: r => (b, Indexed i n) :: draws b r
  | CDrawIndirect x o s :: r => (b, Indirect x o s) :: draws b r
  | CDrawIndexedIndirect x o s :: r => (b, IndexedIndirect x o s) :: draws b r
  | _ :: r => draws b r
  end.
(* A buffer of a configuration at a pass index: one for all indices, or one per index; None for no buffer. *)
Inductive configured : list N -> nat -> N -> Prop :=
| configured_shared b i : configured [b] i b
| configured_each l i b : length l <> 1%nat -> nth_error l i = Some b -> configured l i b.
