(* Vocabulary of C102: refusals of the driver. *)
From Verif Require Export Model_Fail Spec_Res.
Local Open Scope N_scope.

(* The driver never refuses. *)
Definition accepts (l : answers) : Prop := forall b, In b l -> b = true.
(* A refusal was met: one of the answers consumed by a call is false. *)
Definition refused (before after : answers) : Prop := exists used, before = used ++ after /\ In false used.
(* What a history asks the driver to create after [l1]. *)
Definition nothing_created (l1 l2 : list event) : Prop := created l2 = created l1.
(* The resource an operation is about. *)
Inductive resource := RImage (i : N) | RView (v : N) | RSampler (hash : N) | RQuad (hash : N).
(* What the handler, for images and views, and the cache [k], for samplers and quads, hold for a resource. *)
Definition entry (s : rsystem) (k : ckey) (r : resource) : option N :=
  match r with
  | RImage i => option_map fst (mfind i (rh_images (sy_handler s)))
  | RView v => mfind v (rh_views (sy_handler s))
  | RSampler x => mfind x (cc_samplers (get_cache k (sy_caches s)))
  | RQuad x => mfind x (cc_buffers (get_cache k (sy_caches s)))
  end.
(* Whether an operation may create the resource (a view creates its image). *)
Definition concerns (hs : hashes) (o : res_op) (k : ckey) (r : resource) : Prop :=
  match o, r with
  | RCreateImage _ _ i, RImage j => i = j
  | RCreateView _ _ _ i, RImage j => i = j
  | RCreateView _ _ v _, RView w => v = w
  | RCreateSampler rc cx d, RSampler x => k = (rc, cx) /\ x = samplerHash hs d
  | RCreateQuad rc cx q, RQuad x => k = (rc, cx) /\ x = quadHash q
  | _, _ => False
  end.
(* A request: an operation that creates when needed. *)
Definition is_request (o : res_op) : Prop :=
  match o with RCreateImage _ _ _ | RCreateView _ _ _ _ | RCreateSampler _ _ _ | RCreateQuad _ _ _ => True | _ => False end.

(* An operation that names an image, a view: nothing about them happened before a history that has none. *)
Definition asks_image (i : N) (o : res_op) : Prop := match o with RCreateImage _ _ j | RCreateView _ _ _ j => j = i | _ => False end.
Definition asks_view (v : N) (o : res_op) : Prop := match o with RCreateView _ _ w _ => w = v | _ => False end.
Definition asks_sampler (hs : hashes) (k : ckey) (x : N) (o : res_op) : Prop :=
  match o with RCreateSampler rc cx d => (rc, cx) = k /\ samplerHash hs d = x | _ => False end.
Definition asks_quad (k : ckey) (q : quad_config) (o : res_op) : Prop := match o with RCreateQuad rc cx q' => (rc, cx) = k /\ q' = q | _ => False end.
Definition never (P : res_op -> Prop) (ops : list (res_op * answers)) : Prop := Forall (fun o => ~ P (fst o)) ops.
