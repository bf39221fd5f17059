(* Vocabulary of C30, C31, C32, C55, C56: independent of how the handler and the caches work. *)
From Coq Require Import QArith.
From Verif Require Export Model_Res.
Local Open Scope N_scope.

(* Two descriptions of the same Vulkan view: same image, flags, type, format and subresource range. *)
Definition same_description (a b : view) : Prop :=
  i_id (v_image a) = i_id (v_image b) /\ v_flags a = v_flags b /\ v_type a = v_type b /\ v_format a = v_format b /\
  v_range a = v_range b.

(* The images and views asked by a history and what was answered, in order. *)
Definition asked_images (ops : list id_op) : list image := flat_map (fun o => match o with NewImage i => [i] | _ => [] end) ops.
Definition asked_views (ops : list id_op) : list view := flat_map (fun o => match o with NewView v => [v] | _ => [] end) ops.
Definition got_images (l : list id_result) : list image := flat_map (fun o => match o with GotImage i => [i] | _ => [] end) l.
Definition got_views (l : list id_result) : list view := flat_map (fun o => match o with GotView v => [v] | _ => [] end) l.

(* Two images that differ by their identifier only. *)
Definition same_image_data (a b : image) : Prop :=
  i_width a = i_width b /\ i_height a = i_height b /\ i_depth a = i_depth b /\ i_levels a = i_levels b /\
  i_layers a = i_layers b /\ i_format a = i_format b.

(* Handles created and destroyed by a sequence of driver calls. *)
Definition created (log : list event) : list N := flat_map (fun e => match e with Created _ h => [h] | _ => [] end) log.
Definition destroyed (log : list event) : list N := flat_map (fun e => match e with Destroyed h => [h] | _ => [] end) log.

(* The driver calls issued by a history. *)
Definition driver_log (s : rsystem) : list event := rh_log (sy_handler s).

(* An object that exists: created, not destroyed. *)
Definition alive (s : rsystem) (h : N) : Prop := In h (created (driver_log s)) /\ ~ In h (destroyed (driver_log s)).

(* The user creates each image through a cache of a context with a device before any view of it. *)
Definition image_alive (s : rsystem) (img : N) : Prop := exists vk, In (Created (OImage img) vk) (driver_log s) /\ alive s vk.
Definition view_alive (s : rsystem) (v : N) : Prop := exists vk, In (Created (OView v) vk) (driver_log s) /\ alive s vk.
Definition op_disciplined (devices : N -> bool) (s : rsystem) (o : res_op) : Prop :=
  match o with
  | RCreateImage _ cx img => devices cx = true
  | RCreateView _ cx v img => image_alive s img \/ view_alive s v
  | _ => True
  end.
Fixpoint disciplined (devices : N -> bool) (hs : hashes) (s : rsystem) (ops : list res_op) : Prop :=
  match ops with
  | [] => True
  | o :: r => op_disciplined devices s o /\ disciplined devices hs (fst (res_step devices hs s o)) r
  end.

(* The cache rc is not destroyed by a history. *)
Definition keeps_cache (rc : N) (ops : list res_op) : Prop := Forall (fun o => o <> RDestroyCache rc) ops.

(* Texture coordinates at the point (x, y) of the clip space of a triangle given by its three vertices:
   the affine map that agrees with the three vertices. *)
Definition z2q (p : Z * Z) : Q * Q := (inject_Z (fst p), inject_Z (snd p)).
Definition interpolates (vs : list ((Z * Z) * (Z * Z))) (f : Q -> Q -> Q * Q) : Prop :=
  (exists a b c d e g : Q, forall x y, (fst (f x y) == a * x + b * y + c)%Q /\ (snd (f x y) == d * x + e * y + g)%Q) /\
  Forall (fun v => (fst (f (inject_Z (fst (fst v))) (inject_Z (snd (fst v)))) == inject_Z (fst (snd v)))%Q /\
                   (snd (f (inject_Z (fst (fst v))) (inject_Z (snd (fst v)))) == inject_Z (snd (snd v)))%Q) vs.
(* Where a full screen quad reads: the unit square over the screen, possibly mirrored. *)
Definition expected_u (q : quad_config) (x : Q) : Q := (let u := (x + 1) / 2 in if qc_invertU q then 1 - u else u)%Q.
Definition expected_v (q : quad_config) (y : Q) : Q := (let v := (y + 1) / 2 in if qc_invertV q then 1 - v else v)%Q.
