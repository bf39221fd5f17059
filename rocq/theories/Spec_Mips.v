(* Specification vocabulary for image contents: a device executing the recorded commands. *)
From Verif Require Export Model_Mips Spec_Record.
Local Open Scope N_scope.

(* The content of one level of one layer of an image: lost, the one it had before the commands, the
   reduction of another content to the size of the next level, or something else. *)
Inductive content := Lost | Before (image layer mip : N) | Reduced (c : content) | Else.
Record device := { d_layout : N -> N -> N -> N; d_content : N -> N -> N -> content }.

(* Size of a mip level in Vulkan: max( 1, floor( size / 2^level ) ). *)
Definition vk_size (size level : N) : N := N.max 1 (size / 2 ^ level).
Definition at_point (p q : N * N * N) : bool :=
  andb (N.eqb (fst (fst p)) (fst (fst q))) (andb (N.eqb (snd (fst p)) (snd (fst q))) (N.eqb (snd p) (snd q))).
Definition whole_level (im : image) (level : N) (from to : N * N * N) : bool :=
  andb (at_point from (0, 0, 0)) (at_point to (vk_size (i_width im) level, vk_size (i_height im) level, vk_size (i_depth im) level)).
Definition at_sub (id i : N) (r : srange) (layer mip : N) : bool := andb (N.eqb i id) (in_rangeb r layer mip).
Definition one_level (im : image) (r : srange) : bool :=
  andb (andb (N.eqb (r_layers r) 1) (N.eqb (r_levels r) 1)) (N.eqb (r_aspect r) (getAspectMask (i_format im))).

(* What the barriers and blits on image [im] do, None when they are illegal.
   The old layout of a barrier is the current one or UNDEFINED, which loses the content.
   A blit needs its source in TRANSFER_SRC and its destination in TRANSFER_DST; it reduces the content when
   it goes from a whole level to the whole next one, with linear filtering. *)
Definition execute (im : image) (d : device) (c : cmd) : option device :=
  match c with
  | CImageBarrier id r _ _ _ _ old new =>
      if andb (N.eqb id (i_id im)) (forallb (fun s => orb (N.eqb old L_UNDEFINED) (N.eqb old (d_layout d id (fst s) (snd s)))) (subresources r))
      then Some {| d_layout := fun i layer mip => if at_sub id i r layer mip then new else d_layout d i layer mip;
                   d_content := fun i layer mip => if andb (at_sub id i r layer mip) (N.eqb old L_UNDEFINED) then Lost else d_content d i layer mip |}
      else None
  | CBlitImage src sl dst dl ss ds s0 s1 d0 d1 filter =>
      if andb (andb (andb (N.eqb src (i_id im)) (N.eqb dst (i_id im))) (andb (one_level im ss) (one_level im ds)))
              (andb (andb (N.eqb sl L_TRANSFER_SRC) (N.eqb dl L_TRANSFER_DST))
                    (andb (N.eqb (d_layout d src (r_layer ss) (r_mip ss)) L_TRANSFER_SRC)
                          (N.eqb (d_layout d dst (r_layer ds) (r_mip ds)) L_TRANSFER_DST)))
      then Some {| d_layout := d_layout d;
                   d_content := fun i layer mip =>
                     if at_sub dst i ds layer mip
                     then if andb (andb (whole_level im (r_mip ss) s0 s1) (whole_level im (r_mip ds) d0 d1))
                                  (andb (N.eqb filter FILTER_LINEAR) (N.eqb (r_mip ds) (r_mip ss + 1)))
                          then Reduced (d_content d src (r_layer ss) (r_mip ss)) else Else
                     else d_content d i layer mip |}
      else None
  | _ => None
  end.
Fixpoint execute_all (im : image) (d : device) (l : list cmd) : option device :=
  match l with
  | [] => Some d
  | c :: r => match execute im d c with Some d' => execute_all im d' r | None => None end
  end.

(* [level] reductions of a content. *)
Definition reduced (level : N) (c : content) : content := N.iter level Reduced c.

(* What the record context, the declared inputs of the graph and its previous recording say about the
   layout of one level: nothing, or the right thing. *)
Definition said_layout (g : rgraph) (c : rctx) (im : image) (vt layer mip : N) : N :=
  ls_layout (snd (getCurrentLayoutState g c im vt (level_range (i_format im) layer mip))).
Definition informed (g : rgraph) (c : rctx) (d : device) (v : view) : Prop :=
  forall layer, r_layer (v_range v) <= layer < r_layer (v_range v) + r_layers (v_range v) ->
    said_layout g c (v_image v) (v_type v) layer 0 = d_layout d (i_id (v_image v)) layer 0 /\
    d_layout d (i_id (v_image v)) layer 0 <> L_UNDEFINED /\
    (forall mip, 1 <= mip < i_levels (v_image v) ->
       let l := ls_layout (rc_getLayoutState c (v_image v) (v_type v) (level_range (i_format (v_image v)) layer mip)) in
       l = L_UNDEFINED \/ l = d_layout d (i_id (v_image v)) layer mip).
(* The view and the type of its image. *)
Definition mips_view_ok (v : view) (itype : N) : Prop :=
  (itype = VT_3D <-> v_type v = VT_3D) /\ (itype = VT_3D -> r_layers (v_range v) = 1) /\
  r_layer (v_range v) + r_layers (v_range v) < 2 ^ 32 /\ 1 <= i_levels (v_image v) <= 32 /\
  i_width (v_image v) < 2 ^ 31 /\ i_height (v_image v) < 2 ^ 31 /\ i_depth (v_image v) < 2 ^ 31.

(* Synchronisation of the levels of image [im] by the barriers: what the device has been told to make possible (accesses and
   stages), and what the last transfers did to the level since its last barrier. *)
Inductive last_transfer := Idle | ReadBy | WrittenBy.
Record hazard := { z_access : N -> N -> N; z_stage : N -> N -> N; z_pending : N -> N -> last_transfer }.
Definition has (a b : N) : bool := N.eqb (N.land a b) b.
(* A barrier after a transfer waits for it: for the reads, its source stages have the transfers; after a write, the written data
   is made available too.  A transfer needs its accesses to be possible, and no write is pending on its operands. *)
Definition synchronise (im : image) (z : hazard) (c : cmd) : option hazard :=
  match c with
  | CImageBarrier id r ss ds sa da _ _ =>
      if andb (N.eqb id (i_id im))
              (forallb (fun s => match z_pending z (fst s) (snd s) with
                                 | Idle => true
                                 | ReadBy => has ss S_TRANSFER
                                 | WrittenBy => andb (has ss S_TRANSFER) (has sa A_TRANSFER_WRITE)
                                 end) (subresources r))
      then Some {| z_access := fun layer mip => if in_rangeb r layer mip then da else z_access z layer mip;
                   z_stage := fun layer mip => if in_rangeb r layer mip then ds else z_stage z layer mip;
                   z_pending := fun layer mip => if in_rangeb r layer mip then Idle else z_pending z layer mip |}
      else None
  | CBlitImage src _ dst _ ss ds _ _ _ _ _ =>
      let ready write s := andb (andb (has (z_access z (r_layer s) (r_mip s)) (if (write : bool) then A_TRANSFER_WRITE else A_TRANSFER_READ))
                                      (has (z_stage z (r_layer s) (r_mip s)) S_TRANSFER))
                                (match z_pending z (r_layer s) (r_mip s) with WrittenBy => false | ReadBy => negb write | Idle => true end) in
      if andb (andb (andb (N.eqb src (i_id im)) (N.eqb dst (i_id im))) (andb (one_level im ss) (one_level im ds))) (andb (ready false ss) (ready true ds))
      then Some {| z_access := z_access z; z_stage := z_stage z;
                   z_pending := fun layer mip => if in_rangeb ds layer mip then WrittenBy else if in_rangeb ss layer mip then ReadBy else z_pending z layer mip |}
      else None
  | _ => None
  end.
Fixpoint synchronise_all (im : image) (z : hazard) (l : list cmd) : option hazard :=
  match l with
  | [] => Some z
  | c :: r => match synchronise im z c with Some z' => synchronise_all im z' r | None => None end
  end.
(* The levels of the view are idle before the pass, the layout of level 0 is known, and the levels known to be in a transfer layout can be transferred. *)
Definition prepared (g : rgraph) (c : rctx) (z : hazard) (v : view) : Prop :=
  forall layer, r_layer (v_range v) <= layer < r_layer (v_range v) + r_layers (v_range v) ->
    (forall mip, mip < i_levels (v_image v) -> z_pending z layer mip = Idle) /\
    said_layout g c (v_image v) (v_type v) layer 0 <> L_UNDEFINED /\
    (said_layout g c (v_image v) (v_type v) layer 0 = L_TRANSFER_SRC ->
       has (z_access z layer 0) A_TRANSFER_READ = true /\ has (z_stage z layer 0) S_TRANSFER = true) /\
    (forall mip, 1 <= mip < i_levels (v_image v) ->
       let k := rc_getLayoutState c (v_image v) (v_type v) (level_range (i_format (v_image v)) layer mip) in
       ls_layout k = L_TRANSFER_DST ->
       has (ps_access (ls_state k)) A_TRANSFER_WRITE = true /\ has (z_access z layer mip) A_TRANSFER_WRITE = true /\ has (z_stage z layer mip) S_TRANSFER = true).
