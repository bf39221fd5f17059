(* Model of the dependency search, of the transitions and of the graph of nodes.
   Sources: source/RenderGraph/FramePass.cpp:14-264, source/RenderGraph/FramePassDependenciesBuilder.cpp,
   source/RenderGraph/AttachmentTransition.cpp, source/RenderGraph/GraphBuilder.cpp,
   source/RenderGraph/GraphNode.cpp:15-94, source/RenderGraph/FrameGraph.cpp:113-153, 201-226, 640-646. *)
From Verif Require Export Model_Attach.
Local Open Scope N_scope.

(* FramePass: identifier, attachments, passDepends.  Simplification: a FramePass pointer is the id of
   the pass, unique in a graph (C06): dependencies on passes of other graphs are not represented here
   (see Model_Sort.v for them). *)
Record dpass := { d_id : N; d_images : list attach; d_buffers : list attach; d_deps : list N }.
Definition empty_dpass (i : N) : dpass := {| d_id := i; d_images := []; d_buffers := []; d_deps := [] |}.
Definition world := list dpass.
(* The pass behind a pointer *)
Fixpoint pass_of (w : world) (i : N) : dpass :=
  match w with [] => empty_dpass i | p :: r => if N.eqb (d_id p) i then p else pass_of r i end.

(* FrameGraph.cpp:113-121: match of two ranges *)
Definition match_range (a b : srange) : bool :=
  andb (andb (negb (N.eqb (N.land (r_aspect a) (r_aspect b)) 0)) (andb (N.eqb (r_layer a) (r_layer b)) (N.eqb (r_layers a) (r_layers b))))
       (andb (N.eqb (r_mip a) (r_mip b)) (N.eqb (r_levels a) (r_levels b))).
(* FrameGraph.cpp:123-142 *)
Definition match_typed (im : image) (ta tb : N) (a b : srange) : bool :=
  if N.eqb ta tb then match_range a b else match_range (getVirtualRange im ta a) (getVirtualRange im tb b).
(* FrameGraph.cpp:144-153, 640-646: match of two views *)
Definition match_view (a b : view) : bool :=
  andb (N.eqb (i_id (v_image a)) (i_id (v_image b)))
       (andb (N.eqb (v_flags a) (v_flags b))
             (andb (N.eqb (v_format a) (v_format b))
                   (match_typed (v_image a) (v_type a) (v_type b) (v_range a) (v_range b)))).

(* Id.hpp: equality of ids *)
Definition view_eqb (a b : view) : bool := N.eqb (v_id a) (v_id b).
Fixpoint list_eqb {A} (eqb : A -> A -> bool) (a b : list A) : bool :=
  match a, b with [], [] => true | x :: a, y :: b => andb (eqb x y) (list_eqb eqb a b) | _, _ => false end.
(* AttachmentTransition.cpp:49-52: equality of Buffer *)
Definition buffer_eqb : list N -> list N -> bool := list_eqb N.eqb.
Definition opt_eqb (a b : option N) : bool :=
  match a, b with Some x, Some y => N.eqb x y | None, None => true | _, _ => false end.
(* Attachment.cpp:610-655: equality of attachments *)
Definition attach_eqb (a b : attach) : bool :=
  andb (andb (opt_eqb (at_pass a) (at_pass b)) (N.eqb (at_flags a) (at_flags b)))
  (andb (andb (andb (N.eqb (ia_flags a) (ia_flags b)) (list_eqb view_eqb (ia_views a) (ia_views b)))
        (andb (andb (N.eqb (ia_load a) (ia_load b)) (N.eqb (ia_store a) (ia_store b)))
              (andb (andb (N.eqb (ia_sload a) (ia_sload b)) (N.eqb (ia_sstore a) (ia_sstore b))) (N.eqb (ia_misc a) (ia_misc b)))))
        (andb (andb (N.eqb (ba_flags a) (ba_flags b)) (buffer_eqb (ba_buffers a) (ba_buffers b)))
              (andb (N.eqb (ba_view a) (ba_view b)) (andb (N.eqb (ba_offset a) (ba_offset b)) (N.eqb (ba_size a) (ba_size b)))))).

(* Attachment.cpp:430-439: Attachment( view, origin ).  The views are those of the origin; only the name
   (not represented) depends on the given view. *)
Definition split_of (_ : view) (origin : attach) : attach := origin.
(* FramePass.cpp:16-33 and FramePassDependenciesBuilder.cpp:97-114 *)
Definition splitAttach (a : attach) : list attach :=
  match v_source (attach_view a 0) with [] => [a] | s => map (fun v => split_of v a) s end.
(* FramePass.cpp:35-52 *)
Definition splitView (v : view) : list view := match v_source v with [] => [v] | s => s end.
(* FramePass.cpp:54-74: matchView *)
Definition matchView (pred : attach -> bool) (a : attach) (v : view) : bool :=
  existsb (fun l => existsb (fun r => andb (match_view (attach_view l 0) r) (pred l)) (splitView v)) (splitAttach a).
(* FramePass.cpp:76-114: isInOutputs, isInInputs for a view *)
Definition isInOutputs_view (v : view) (p : dpass) : bool := existsb (fun a => matchView isOutput a v) (d_images p).
Definition isInInputs_view (v : view) (p : dpass) : bool := existsb (fun a => matchView isInput a v) (d_images p).
(* FramePass.cpp:116-142: isInOutputs, isInInputs for a buffer: the same function *)
Definition isInOutputs_buffer (b : list N) (p : dpass) : bool :=
  existsb (fun a => andb (isStorageBuffer a) (buffer_eqb (ba_buffers a) b)) (d_buffers p).
Definition isInInputs_buffer (b : list N) (p : dpass) : bool :=
  existsb (fun a => andb (isStorageBuffer a) (buffer_eqb (ba_buffers a) b)) (d_buffers p).

(* FrameGraphPrerequisites.hpp:220-225: Buffer::buffer( index ); out of range is undefined in C++ (0 here) *)
Definition buffer_at (b : list N) (index : nat) : N := match b with [x] => x | l => nth index l 0 end.
(* FramePass.cpp:158-186: makeHash, 64-bit branch.  Identifiers are uint32_t, handles 64-bit numbers. *)
Definition makeHash_view (pass view_id : N) : N := N.lor (u64 (N.shiftl pass 32)) view_id.
Definition makeHash_buffer (pass : N) (b : list N) : N := N.lor (u64 (N.shiftl pass 32)) (N.land (buffer_at b 0) (2 ^ 32 - 1)).

(* PassDependencyCache *)
Definition dcache := nmap (nmap bool).
Definition cfind (self h : N) (c : dcache) : option bool := match mfind self c with Some m => mfind h m | None => None end.
Definition cput (self h : N) (b : bool) (c : dcache) : dcache :=
  mput self (mput h b (match mfind self c with Some m => m | None => [] end)) c.

(* FramePass.cpp:202-232 and 234-264: dependsOn( pass, resource, cache ), for a resource given by its
   predicates and the hash of (pass, resource).  None: [fuel] exhausted (excluded by C22_terminates). *)
Section Search.
  Variables (isOut isIn : dpass -> bool) (w : world).
  (* FramePass.cpp:211-227: find_if over passDepends, [rec] being dependsOn *)
  Fixpoint search (rec : N -> dcache -> option (bool * dcache)) (target : N) (deps : list N) (c : dcache) : option (bool * dcache) :=
    match deps with
    | [] => Some (false, c)
    | q :: r =>
        if isOut (pass_of w q)
        then (if N.eqb target q then Some (true, c) else search rec target r c)
        else if isIn (pass_of w q) then search rec target r c
        else match rec q c with
             | None => None
             | Some (true, c') => Some (true, c')
             | Some (false, c') => search rec target r c'
             end
    end.
  Fixpoint dependsOn_fuel (fuel : nat) (h target self : N) (c : dcache) : option (bool * dcache) :=
    match fuel with
    | O => None
    | S f =>
        match cfind self h c with
        | Some b => Some (b, c)
        | None =>
            match search (dependsOn_fuel f h target) target (d_deps (pass_of w self)) (cput self h false c) with
            | None => None
            | Some (b, c') => Some (b, cput self h b c')
            end
        end
    end.
End Search.
(* The passes reachable from a pass of [w] are passes of [w]: one level of recursion for each is enough.
   The unreachable None is read as false. *)
Definition dependsOn_gen (isOut isIn : dpass -> bool) (w : world) (h target self : N) (c : dcache) : bool * dcache :=
  match dependsOn_fuel isOut isIn w (S (length w)) h target self c with Some x => x | None => (false, c) end.
Definition dependsOn_view (w : world) (self target : N) (v : view) (c : dcache) : bool * dcache :=
  dependsOn_gen (isInOutputs_view v) (isInInputs_view v) w (makeHash_view target (v_id v)) target self c.
Definition dependsOn_buffer (w : world) (self target : N) (b : list N) (c : dcache) : bool * dcache :=
  dependsOn_gen (isInOutputs_buffer b) (isInInputs_buffer b) w (makeHash_buffer target b) target self c.

(* FramePassDependenciesBuilder.cpp:25-30 *)
Definition isInRange (value left count : N) : bool := andb (N.leb left value) (N.ltb value (u32 (left + count))).
(* FramePassDependenciesBuilder.cpp:305-312 *)
Definition areIntersecting_1 (la lc ra rc : N) : bool := orb (isInRange la ra rc) (isInRange ra la lc).
(* FramePassDependenciesBuilder.cpp:314-325: the layers use the count of the left range twice *)
Definition areIntersecting (a b : srange) : bool :=
  andb (areIntersecting_1 (r_mip a) (r_levels a) (r_mip b) (r_levels b))
       (areIntersecting_1 (r_layer a) (r_layers a) (r_layer b) (r_layers a)).
(* FramePassDependenciesBuilder.cpp:327-345 *)
Definition areOverlapping_view (a b : view) : bool :=
  andb (N.eqb (i_id (v_image a)) (i_id (v_image b)))
       (areIntersecting (getVirtualRange (v_image a) (v_type a) (v_range a)) (getVirtualRange (v_image b) (v_type b) (v_range b))).
Definition areOverlapping_buffer (a b : list N) : bool := N.eqb (buffer_at a 0) (buffer_at b 0).
(* FramePassDependenciesBuilder.cpp:32-40 *)
Definition isSingleMipView (sub main : view) : bool :=
  andb (andb (N.eqb (i_id (v_image main)) (i_id (v_image sub)))
             (isInRange (r_mip (v_range sub)) (r_mip (v_range main)) (r_levels (v_range main))))
       (N.eqb (r_levels (v_range sub)) 1).
(* FramePassDependenciesBuilder.cpp:42-67 *)
Definition getInputView (lhs rhs : view) : view := if orb (view_eqb lhs rhs) (isSingleMipView lhs rhs) then lhs else rhs.
Definition getOutputView (lhs rhs : view) : view := if isSingleMipView lhs rhs then rhs else lhs.

(* DataTransitionT *)
Record transition (D : Type) := { t_data : D; t_out : attach; t_in : attach }.
Arguments t_data {D}. Arguments t_out {D}. Arguments t_in {D}.
(* FramePassDependenciesBuilder.cpp:69-169: AttachDataTraitsT, with the functions overloaded on the data:
   equality of data (Id.hpp, AttachmentTransition.cpp:49-52), overlap (327-345), match (608-616),
   data part of the equality of transitions (AttachmentTransition.cpp:35-47), dependsOn. *)
Record traits (D : Type) := {
  k_get : attach -> D;
  k_getOutput : attach -> attach -> D;
  k_getInput : attach -> attach -> D;
  k_split : attach -> list attach;
  k_isInput : attach -> bool;
  k_isOutput : attach -> bool;
  k_eq : D -> D -> bool;
  k_overlap : D -> D -> bool;
  k_match : D -> D -> bool;
  k_same : D -> D -> bool;
  k_dependsOn : world -> N -> N -> D -> dcache -> bool * dcache;
  k_remaining_input : attach -> bool;
  k_default : D -> attach }.
Arguments k_get {D}. Arguments k_getOutput {D}. Arguments k_getInput {D}. Arguments k_split {D}. Arguments k_isInput {D}.
Arguments k_isOutput {D}. Arguments k_eq {D}. Arguments k_overlap {D}. Arguments k_match {D}. Arguments k_same {D}.
Arguments k_dependsOn {D}. Arguments k_remaining_input {D}. Arguments k_default {D}.

Definition isColourInputAttach (a : attach) : bool := andb (isInput a) (isColourAttach a).
(* ImageViewId *)
Definition view_traits : traits view :=
  {| k_get := fun a => attach_view a 0;
     k_getOutput := fun l r => getOutputView (attach_view l 0) (attach_view r 0);
     k_getInput := fun l r => getInputView (attach_view l 0) (attach_view r 0);
     k_split := splitAttach; k_isInput := isInput; k_isOutput := isOutput;
     k_eq := view_eqb; k_overlap := areOverlapping_view; k_match := match_view; k_same := match_view;
     k_dependsOn := dependsOn_view;
     k_remaining_input := fun a => orb (isColourInputAttach a) (isSampledView a);
     k_default := default_image_attach |}.
(* Buffer *)
Definition buffer_traits : traits (list N) :=
  {| k_get := ba_buffers;
     k_getOutput := fun l _ => ba_buffers l;
     k_getInput := fun l _ => ba_buffers l;
     k_split := fun a => [a];
     k_isInput := fun a => andb (isInput a) (orb (isStorageBuffer a) (orb (isUniformBuffer a) (isTransitionBuffer a)));
     k_isOutput := fun a => andb (isOutput a) (isStorageBuffer a);
     k_eq := buffer_eqb; k_overlap := areOverlapping_buffer; k_match := areOverlapping_buffer; k_same := buffer_eqb;
     k_dependsOn := dependsOn_buffer;
     k_remaining_input := isInput;
     k_default := default_buffer_attach |}.

Section Builder.
  Context {D : Type} (k : traits D) (w : world).

  (* AttachmentTransition.cpp:35-47: equality of transitions *)
  Definition trans_eqb (a b : transition D) : bool :=
    andb (k_same k (t_data a) (t_data b)) (andb (attach_eqb (t_out a) (t_out b)) (attach_eqb (t_in a) (t_in b))).

  (* AttachesT, AttachesArrayT *)
  Definition group := (D * list attach)%type.
  Definition add_attach (a : attach) (l : list attach) : list attach := if existsb (attach_eqb a) l then l else l ++ [a].
  (* FramePassDependenciesBuilder.cpp:355-380 *)
  Fixpoint insertAttach (a : attach) (cont : list group) : list group :=
    match cont with
    | [] => [(k_get k a, [a])]
    | (d, l) :: r => if k_eq k d (k_get k a) then (d, add_attach a l) :: r else (d, l) :: insertAttach a r
    end.
  (* FramePassDependenciesBuilder.cpp:382-396: processAttachSource, the predicate being areOverlapping *)
  Definition processAttachSource (a : attach) (g : group) : group :=
    if k_overlap k (k_get k a) (fst g) then (fst g, add_attach a (snd g)) else g.
  (* FramePassDependenciesBuilder.cpp:398-421 *)
  Definition processAttach (a : attach) (s : list group * list group) : list group * list group :=
    fold_left (fun '(cont, all) x => (insertAttach x (map (processAttachSource x) cont), insertAttach x all)) (k_split k a) s.
  (* FramePassDependenciesBuilder.cpp:423-463: processInputAttachs, processOutputAttachs *)
  Definition processAttachs (sel : attach -> bool) (l : list attach) (s : list group * list group) : list group * list group :=
    fold_left (fun s a => if sel a then processAttach a s else s) l s.

  Definition t_dependsOn (t : transition D) (c : dcache) : bool * dcache :=
    match at_pass (t_in t), at_pass (t_out t) with
    | Some i, Some o => k_dependsOn k w i o (t_data t) c
    | _, _ => (false, c)
    end.
  Definition hasTransition (l : list (transition D)) (t : transition D) : bool := existsb (fun x => trans_eqb x t) l.
  (* FramePassDependenciesBuilder.cpp:512-522: insertion before the first transition which depends on...
     itself: the second argument of deps::dependsOn is ignored *)
  Fixpoint insert_first (t : transition D) (l : list (transition D)) (c : dcache) : option (list (transition D)) * dcache :=
    match l with
    | [] => (None, c)
    | x :: r => let '(b, c) := t_dependsOn x c in
                if b then (Some (t :: x :: r), c)
                else let '(o, c) := insert_first t r c in
                     (match o with Some r' => Some (x :: r') | None => None end, c)
    end.
  (* FramePassDependenciesBuilder.cpp:505-542.  Lines 525-539: the condition does not depend on the
     transition of the list: inserted at the end, when the list is not empty and [t] depends, and at the
     end as well otherwise; the query is made once if the list is not empty and succeeds at once, or for
     each element: the cache is the same as after one query. *)
  Definition insertTransition (t : transition D) (s : list (transition D) * dcache) : list (transition D) * dcache :=
    let '(l, c) := s in
    if hasTransition l t then (l, c)
    else match insert_first t l c with
         | (Some l', c) => (l', c)
         | (None, c) => (l ++ [t], if match l with [] => false | _ => true end then snd (t_dependsOn t c) else c)
         end.

  (* inputTransitions, outputTransitions, allTransitions (of one kind of data) and the cache *)
  Definition ptrans := list (N * list (transition D)).
  Record bstate := { b_all : list (transition D); b_in : ptrans; b_out : ptrans; b_cache : dcache }.
  (* FramePassDependenciesBuilder.cpp:474-491: insertPass, then its transitions *)
  Definition trans_of (p : N) (l : ptrans) : list (transition D) :=
    match find (fun e => N.eqb (fst e) p) l with Some (_, t) => t | None => [] end.
  Fixpoint set_trans (p : N) (t : list (transition D)) (l : ptrans) : ptrans :=
    match l with [] => [(p, t)] | (q, u) :: r => if N.eqb q p then (q, t) :: r else (q, u) :: set_trans p t r end.
  Definition insert_all (t : transition D) (s : bstate) : bstate :=
    let '(l, c) := insertTransition t (b_all s, b_cache s) in {| b_all := l; b_in := b_in s; b_out := b_out s; b_cache := c |}.
  Definition insert_in (p : N) (t : transition D) (s : bstate) : bstate :=
    let '(l, c) := insertTransition t (trans_of p (b_in s), b_cache s) in {| b_all := b_all s; b_in := set_trans p l (b_in s); b_out := b_out s; b_cache := c |}.
  Definition insert_out (p : N) (t : transition D) (s : bstate) : bstate :=
    let '(l, c) := insertTransition t (trans_of p (b_out s), b_cache s) in {| b_all := b_all s; b_in := b_in s; b_out := set_trans p l (b_out s); b_cache := c |}.

  (* FramePassDependenciesBuilder.cpp:618-644: addDependency *)
  Definition input_transition (out_ in_ : attach) : transition D := {| t_data := k_getInput k out_ in_; t_out := out_; t_in := in_ |}.
  Definition output_transition (out_ in_ : attach) : transition D := {| t_data := k_getOutput k out_ in_; t_out := out_; t_in := in_ |}.
  Definition addDependency (i o : N) (out_ in_ : attach) (s : bstate) : bstate :=
    let s := insert_all (input_transition out_ in_) s in
    let s := if k_match k (k_get k out_) (k_get k in_) then s else insert_all (output_transition out_ in_) s in
    insert_out o (output_transition out_ in_) (insert_in i (input_transition out_ in_) s).
  (* FramePassDependenciesBuilder.cpp:646-665: buildPassDependency; the attachments of passes have a pass *)
  Definition buildPassDependency (in_ out_ : attach) (s : bstate) : bstate :=
    match at_pass in_, at_pass out_ with
    | Some i, Some o =>
        let '(b, c) := k_dependsOn k w i o (k_getOutput k in_ out_) (b_cache s) in
        let s := {| b_all := b_all s; b_in := b_in s; b_out := b_out s; b_cache := c |} in
        if b then addDependency i o out_ in_ s else s
    | _, _ => s
    end.
  (* FramePassDependenciesBuilder.cpp:694-705 *)
  Fixpoint erase_data (d : D) (all : list group) : list group :=
    match all with [] => [] | g :: r => if k_eq k (fst g) d then r else g :: erase_data d r end.
  (* FramePassDependenciesBuilder.cpp:667-707 *)
  Definition buildGroupDependencies (input output : group) (s : list group * bstate) : list group * bstate :=
    if k_overlap k (fst input) (fst output)
    then (erase_data (fst input) (fst s),
          fold_left (fun s o => fold_left (fun s i => buildPassDependency i o s) (snd input) s) (snd output) (snd s))
    else s.
  (* FramePassDependenciesBuilder.cpp:544-606: addRemainingDependency; what is given to the list of all
     transitions is the last one of the input transitions of the pass, whichever it is *)
  Definition remaining_transition (a : attach) : transition D :=
    let d := k_get k a in
    if k_remaining_input k a then {| t_data := d; t_out := k_default k d; t_in := a |}
    else {| t_data := d; t_out := a; t_in := k_default k d |}.
  Definition addRemainingDependency (a : attach) (s : bstate) : bstate :=
    match at_pass a with
    | Some p =>
        let s := insert_in p (remaining_transition a) s in
        insert_all (last (trans_of p (b_in s)) (remaining_transition a)) s
    | None => s
    end.
  (* FramePassDependenciesBuilder.cpp:709-739 *)
  Definition buildPassDependencies (inputs outputs all : list group) (s : bstate) : bstate :=
    let '(all, s) := fold_left (fun s o => fold_left (fun s i => buildGroupDependencies i o s) inputs s) outputs (all, s) in
    fold_left (fun s g => fold_left (fun s a => addRemainingDependency a s) (snd g) s) all s.
  (* FramePassDependenciesBuilder.cpp:742-781 for one kind of data, the attachments of a pass being given by [att] *)
  Definition attachGroups (att : dpass -> list attach) (nodes : list dpass) : list group * list group * list group :=
    fold_left (fun '(i, o, a) p =>
      let '(i, a) := processAttachs (k_isInput k) (att p) (i, a) in
      let '(o, a) := processAttachs (k_isOutput k) (att p) (o, a) in (i, o, a)) nodes ([], [], []).
  Definition allTransitions (att : dpass -> list attach) (nodes : list dpass) : bstate :=
    let '(i, o, a) := attachGroups att nodes in
    let none := map (fun p => (d_id p, [])) nodes in
    buildPassDependencies i o a {| b_all := []; b_in := none; b_out := none; b_cache := [] |}.

  (* AttachmentTransition.cpp:16-32: mergeIdenticalTransitionsT *)
  Definition mergeIdentical (l : list (transition D)) : list (transition D) :=
    fold_left (fun result t => if existsb (fun x => trans_eqb x t) result then result else result ++ [t]) l [].
End Builder.
Arguments group : clear implicits.

(* GraphNode: next nodes and input transitions by previous node; None is the root node.  The maps are
   over nodes; a frame pass node is designated by the id of its pass. *)
Definition node := option N.
Record attaches := { as_views : list (transition view); as_buffers : list (transition (list N)) }.
Record graph := { gr_next : list (node * N); gr_inputs : list (N * (node * attaches)) }.
Definition node_eqb : node -> node -> bool := opt_eqb.
Definition no_attaches : attaches := {| as_views := []; as_buffers := [] |}.
(* gr_next: the edges (from, to) in order of insertion; getNext( n ) is the list of the targets of the edges from n *)
Definition getNext (g : graph) (n : node) : list N := map snd (filter (fun e => node_eqb (fst e) n) (gr_next g)).
(* GraphNode.cpp:89-94: getInputAttaches; None: assertion failure *)
Definition getInputAttaches (g : graph) (n : N) (prev : node) : option attaches :=
  match filter (fun e => andb (N.eqb (fst e) n) (node_eqb (fst (snd e)) prev)) (gr_inputs g) with
  | (_, (_, a)) :: _ => Some a | [] => None
  end.
(* GraphNode.hpp: hasPrev *)
Definition hasPrev (g : graph) (n : N) : bool := existsb (fun e => N.eqb (fst e) n) (gr_inputs g).
(* GraphNode.cpp:43-72 *)
Definition add_new {D} (k : traits D) (l new : list (transition D)) : list (transition D) * bool :=
  fold_left (fun '(l, dirty) t => if existsb (fun x => trans_eqb k x t) l then (l, dirty) else (l ++ [t], true)) new (l, false).
Definition addAttaches_to (mine new : attaches) : attaches :=
  let '(v, d1) := add_new view_traits (as_views mine) (as_views new) in
  let '(b, d2) := add_new buffer_traits (as_buffers mine) (as_buffers new) in
  if orb d1 d2 then {| as_views := mergeIdentical view_traits v; as_buffers := mergeIdentical buffer_traits b |}
  else {| as_views := v; as_buffers := b |}.
(* GraphNode.cpp:37-73: addAttaches; operator[] of std::map creates the entry *)
Fixpoint add_entry (n : N) (prev : node) (new : attaches) (l : list (N * (node * attaches))) : list (N * (node * attaches)) :=
  match l with
  | [] => [(n, (prev, addAttaches_to no_attaches new))]
  | (n', (p', a)) :: r =>
      if andb (N.eqb n' n) (node_eqb p' prev) then (n', (p', addAttaches_to a new)) :: r else (n', (p', a)) :: add_entry n prev new r
  end.
(* GraphNode.cpp:75-87: attachNode *)
Definition attachNode (g : graph) (from : node) (to : N) (new : attaches) : graph :=
  {| gr_next := if existsb (fun e => andb (node_eqb (fst e) from) (N.eqb (snd e) to)) (gr_next g) then gr_next g else gr_next g ++ [(from, to)];
     gr_inputs := add_entry to from new (gr_inputs g) |}.
(* GraphBuilder.cpp:47-68: buildGraph of one kind of transitions.  findNode asserts that the pass has a
   node: always true for passes of [w]. *)
Definition buildGraph_kind {D} (k : traits D) (mk : transition D -> attaches) (w : world) (l : list (transition D)) (s : graph * dcache) : graph * dcache :=
  fold_left (fun '(g, c) t =>
    match at_pass (t_in t), at_pass (t_out t) with
    | Some i, Some o =>
        let '(b, c) := k_dependsOn k w i o (t_data t) c in
        if b then (attachNode g (Some o) i (mk t), c) else (g, c)
    | _, _ => (g, c)
    end) l s.
(* GraphBuilder.cpp:70-86: buildGraph *)
Definition empty_graph : graph := {| gr_next := []; gr_inputs := [] |}.
Definition buildGraph (w : world) (nodes : list dpass) (vt : bstate (D := view)) (bt : bstate (D := list N)) : graph :=
  let '(g, _) := buildGraph_kind view_traits (fun t => {| as_views := [t]; as_buffers := [] |}) w (b_all vt) (empty_graph, b_cache vt) in
  let '(g, _) := buildGraph_kind buffer_traits (fun t => {| as_views := []; as_buffers := [t] |}) w (b_all bt) (g, b_cache bt) in
  fold_left (fun g p => if hasPrev g (d_id p) then g else attachNode g None (d_id p) no_attaches) nodes g.
(* FrameGraph.cpp:201-226: compile, after sortPasses gave the nodes *)
Definition compileGraph (nodes : list dpass) : graph :=
  buildGraph nodes nodes (allTransitions view_traits nodes d_images nodes) (allTransitions buffer_traits nodes d_buffers nodes).
