(* Specification vocabulary for dependencies and the graph of nodes. *)
From Verif Require Export Model_Deps Spec_Layout.
From Coq Require Export Relations.
Local Open Scope N_scope.

(* Pass [p] declared a dependency on pass [q]. *)
Definition needs_pass (w : world) (p q : N) : Prop := In q (d_deps (pass_of w p)).
(* The order given by sortPasses (C01, C02): passes are all different and each one comes after its dependencies. *)
Definition compiled_order (w : world) : Prop :=
  NoDup (map d_id w) /\
  forall before p after_, w = before ++ p :: after_ -> forall q, In q (d_deps p) -> In q (map d_id before).

(* [target] is the first pass producing a resource found when following the declared dependencies from
   [self], through passes that neither produce nor consume it. *)
Inductive first_producer (produces consumes : dpass -> Prop) (w : world) : N -> N -> Prop :=
| fp_direct self target :
    needs_pass w self target -> produces (pass_of w target) ->
    first_producer produces consumes w self target
| fp_through self q target :
    needs_pass w self q -> ~ produces (pass_of w q) -> ~ consumes (pass_of w q) ->
    first_producer produces consumes w q target -> first_producer produces consumes w self target.
(* [p] depends on [q], directly or not. *)
Definition depends (w : world) : N -> N -> Prop := clos_trans N (needs_pass w).

(* The subresource numbers a view of the image [im] stands for: the depth slices for a 3D view (see C13),
   else its range. *)
Definition numbers_on (im : image) (v : view) : srange := getVirtualRange im (v_type v) (v_range v).
Definition numbers (v : view) : srange := numbers_on (v_image v) v.
Definition same_numbers (a b : srange) : Prop :=
  r_mip a = r_mip b /\ r_levels a = r_levels b /\ r_layer a = r_layer b /\ r_layers a = r_layers b.
(* Two views denote the same data: same image, same flags and format, a common aspect, the same numbers. *)
Definition same_data (a b : view) : Prop :=
  i_id (v_image a) = i_id (v_image b) /\ v_flags a = v_flags b /\ v_format a = v_format b /\
  N.land (r_aspect (v_range a)) (r_aspect (v_range b)) <> 0 /\
  (if N.eqb (v_type a) (v_type b) then same_numbers (v_range a) (v_range b) else same_numbers (numbers_on (v_image a) a) (numbers_on (v_image a) b)).
(* The views a merged view is made of; a plain view is its only part. *)
Definition parts (v : view) : list view := match v_source v with [] => [v] | s => s end.
(* The first view of an attachment (the one dependencies are about). *)
Definition viewed (a : attach) : view := attach_view a 0.
(* A pass writes, reads a view: it declared as output, as input, an attachment denoting one of its parts. *)
Definition writes_view (v : view) (p : dpass) : Prop :=
  exists a r, In a (d_images p) /\ isOutput a = true /\ In r (parts v) /\ same_data (viewed a) r.
Definition reads_view (v : view) (p : dpass) : Prop :=
  exists a r, In a (d_images p) /\ isInput a = true /\ In r (parts v) /\ same_data (viewed a) r.
(* A pass declared a buffer as storage (read, written or both). *)
Definition declares_storage (b : list N) (p : dpass) : Prop :=
  exists a, In a (d_buffers p) /\ isStorageBuffer a = true /\ ba_buffers a = b.
(* A pass writes a buffer: a storage or transfer attachment declared as output. *)
Definition writes_buffer (b : list N) (p : dpass) : Prop :=
  exists a, In a (d_buffers p) /\ isOutput a = true /\ ba_buffers a = b.

(* A history of queries sharing one cache, with the answers. *)
Record vquery := { vq_self : N; vq_target : N; vq_view : view }.
Fixpoint ask_views (w : world) (qs : list vquery) (c : dcache) : list bool :=
  match qs with
  | [] => []
  | q :: r => let '(b, c) := dependsOn_view w (vq_self q) (vq_target q) (vq_view q) c in b :: ask_views w r c
  end.
Record bquery := { bq_self : N; bq_target : N; bq_buffer : list N }.
Fixpoint ask_buffers (w : world) (qs : list bquery) (c : dcache) : list bool :=
  match qs with
  | [] => []
  | q :: r => let '(b, c) := dependsOn_buffer w (bq_self q) (bq_target q) (bq_buffer q) c in b :: ask_buffers w r c
  end.

(* Ids are 32-bit numbers and a view id designates one view (C30). *)
Definition view_ids_ok (vs : list view) : Prop :=
  (forall v, In v vs -> v_id v < 2 ^ 32) /\ (forall a b, In a vs -> In b vs -> v_id a = v_id b -> a = b).
Definition pass_ids_ok (w : world) : Prop := forall p, In p w -> d_id p < 2 ^ 32.
(* Buffers are told apart by the 32 low bits of their first handle. *)
Definition buffer_ids_ok (bs : list (list N)) : Prop :=
  forall a b, In a bs -> In b bs -> buffer_at a 0 mod 2 ^ 32 = buffer_at b 0 mod 2 ^ 32 -> a = b.

(* A view has a subresource at all, does not reach 2^32 and has an aspect. *)
Definition proper_range (r : srange) : Prop :=
  0 < r_levels r /\ 0 < r_layers r /\ r_mip r + r_levels r < 2 ^ 32 /\ r_layer r + r_layers r < 2 ^ 32.
(* What attachments declared through FramePass satisfy. *)
Definition well_declared (w : world) : Prop :=
  forall p, In p w -> (forall a, In a (d_images p) -> at_pass a = Some (d_id p) /\ isImage a = true) /\
                      (forall a, In a (d_buffers p) -> at_pass a = Some (d_id p) /\ isBuffer a = true).
(* Reachable from the root of the graph. *)
Inductive reachable (g : graph) : N -> Prop :=
| rch_root n : In n (getNext g None) -> reachable g n
| rch_next m n : reachable g m -> In n (getNext g (Some m)) -> reachable g n.

(* Sublist, keeping the order. *)
Inductive sublist {A} : list A -> list A -> Prop :=
| sl_nil : sublist [] []
| sl_skip x l l' : sublist l l' -> sublist l (x :: l')
| sl_keep x l l' : sublist l l' -> sublist (x :: l) (x :: l').

(* The views and buffers of the attachments of all passes. *)
Definition attachment_views (w : world) : list view := flat_map (fun p => map viewed (d_images p)) w.
Definition attachment_buffers (w : world) : list (list N) := flat_map (fun p => map ba_buffers (d_buffers p)) w.
(* Vulkan and library identifiers are sane. *)
Definition ids_ok (w : world) : Prop :=
  pass_ids_ok w /\ view_ids_ok (attachment_views w) /\ buffer_ids_ok (attachment_buffers w).
(* A transition carries the data of an output attachment of [a] to an input attachment of [b]. *)
Definition carries_view (w : world) (a b : N) (t : transition view) : Prop :=
  (In (t_out t) (d_images (pass_of w a)) /\ isOutput (t_out t) = true) /\
  (In (t_in t) (d_images (pass_of w b)) /\ isInput (t_in t) = true) /\
  (t_data t = viewed (t_out t) \/ t_data t = viewed (t_in t)) /\
  first_producer (writes_view (t_data t)) (reads_view (t_data t)) w b a.
Definition carries_buffer (w : world) (a b : N) (t : transition (list N)) : Prop :=
  (In (t_out t) (d_buffers (pass_of w a)) /\ isOutput (t_out t) = true /\ isStorageBuffer (t_out t) = true) /\
  (In (t_in t) (d_buffers (pass_of w b)) /\ isInput (t_in t) = true) /\
  (t_data t = ba_buffers (t_out t) \/ t_data t = ba_buffers (t_in t)) /\
  first_producer (declares_storage (t_data t)) (declares_storage (t_data t)) w b a.
(* [v] is one mip level of the view [u]. *)
Definition one_level_of (v u : view) : Prop :=
  i_id (v_image v) = i_id (v_image u) /\ r_levels (v_range v) = 1 /\ r_mip (v_range u) <= r_mip (v_range v) < r_mip (v_range u) + r_levels (v_range u).
(* Two ranges have a subresource in common. *)
Definition share_subresource (a b : srange) : Prop := exists layer mip, in_range a layer mip /\ in_range b layer mip.

(* Two declarations of the same attachment: same pass, same way of using the same views or buffers. *)
Definition same_declaration (a b : attach) : Prop :=
  at_pass a = at_pass b /\ at_flags a = at_flags b /\
  (ia_flags a = ia_flags b /\ map v_id (ia_views a) = map v_id (ia_views b) /\ ia_misc a = ia_misc b /\
   ia_load a = ia_load b /\ ia_store a = ia_store b /\ ia_sload a = ia_sload b /\ ia_sstore a = ia_sstore b) /\
  (ba_flags a = ba_flags b /\ ba_buffers a = ba_buffers b /\ ba_view a = ba_view b /\ ba_offset a = ba_offset b /\ ba_size a = ba_size b).
(* Two transitions of the same data between the same attachments. *)
Definition same_transition {D} (same : D -> D -> Prop) (x y : transition D) : Prop :=
  same (t_data x) (t_data y) /\ same_declaration (t_out x) (t_out y) /\ same_declaration (t_in x) (t_in y).
