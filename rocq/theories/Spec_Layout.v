(* Specification vocabulary for layout tracking. *)
From Verif Require Export Model_Layout.
Local Open Scope N_scope.

(* A non-empty range of mip levels and layers that does not wrap around 2^32. *)
Definition valid_range (r : srange) : Prop :=
  0 < r_levels r /\ 0 < r_layers r /\ r_mip r + r_levels r <= 2 ^ 32 /\ r_layer r + r_layers r <= 2 ^ 32.

(* The subresource (layer, mip) belongs to the range. *)
Definition in_range (r : srange) (layer mip : N) : Prop :=
  r_layer r <= layer < r_layer r + r_layers r /\ r_mip r <= mip < r_mip r + r_levels r.

Definition sub_range (a b : srange) : Prop := forall layer mip, in_range a layer mip -> in_range b layer mip.
Definition disjoint_ranges (a b : srange) : Prop := forall layer mip, in_range a layer mip -> ~ in_range b layer mip.

(* The subresources of a range: layer by layer, and mip by mip in a layer. *)
Definition subresources (r : srange) : list (N * N) :=
  flat_map (fun i => map (fun j => (r_layer r + i, r_mip r + j)) (iota (r_levels r))) (iota (r_layers r)).

(* What is known about one subresource. *)
Definition tracked (m : layer_states) (layer mip : N) : option lstate :=
  match mfind layer m with Some l => mfind mip l | None => None end.

(* The states known in a range, in the order of [subresources]. *)
Definition tracked_list (m : layer_states) (r : srange) : list lstate :=
  flat_map (fun s => match tracked m (fst s) (snd s) with Some st => [st] | None => [] end) (subresources r).

(* The answer for a mix of states: smallest layout, union of the access masks of the subresources in
   this layout, stage of the first one of them. *)
Definition is_summary (l : list lstate) (s : lstate) : Prop :=
  match l with
  | [] => s = mk_lstate L_UNDEFINED 0 S_HOST
  | _ => (forall x, In x l -> ls_layout s <= ls_layout x) /\
         let same := filter (fun x => N.eqb (ls_layout x) (ls_layout s)) l in
         same <> [] /\
         ps_access (ls_state s) = fold_right (fun x a => N.lor (ps_access (ls_state x)) a) 0 same /\
         (forall d, ps_stage (ls_state s) = ps_stage (ls_state (hd d same)))
  end.
