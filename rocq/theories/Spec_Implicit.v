(* Specification vocabulary for the implicit actions made by RecordContext: what they are asked to do, and
   what the recorded commands do. *)
From Verif Require Export Spec_Passes Spec_Record.
Local Open Scope N_scope.

(* What a command does to images: moves texels (Spec_Passes), or clears a range as colour or not. *)
Inductive effect := Moved (src dst : place) | Cleared (colour : bool) (image : N) (range : srange).
Definition effect_of (c : cmd) : list effect :=
  match c with
  | CCopyImage src _ dst _ ss ds w h => [Moved (texels src ss (0, 0, 0) (w, h, 1)) (texels dst ds (0, 0, 0) (w, h, 1))]
  | CClearColour im _ r => [Cleared true im r]
  | CClearDepthStencil im _ r => [Cleared false im r]
  | _ => map (fun m => Moved (fst m) (snd m)) (moves c)
  end.
Definition effects (l : list cmd) : list effect := flat_map effect_of l.

(* The depth and/or stencil formats of Vulkan: VK_FORMAT_D16_UNORM (124) to VK_FORMAT_D32_SFLOAT_S8_UINT (130). *)
Definition depth_or_stencil (format : N) : Prop := 124 <= format <= 130.
(* The view of an attachment at a pass index: one for all indices, or one for each. *)
Inductive view_for : list view -> nat -> view -> Prop :=
| view_shared v i : view_for [v] i v
| view_each l i v : length l <> 1%nat -> nth_error l i = Some v -> view_for l i v.

(* What an action is asked to do at a pass index. *)
Inductive asked_to (index : nat) : action -> effect -> Prop :=
| asked_copy src dst w h final :
    asked_to index (ACopy src dst w h final) (Moved (view_texels src (0, 0, 0) (w, h, 1)) (view_texels dst (0, 0, 0) (w, h, 1)))
| asked_blit src dst sx sy sw sh dx dy dw dh filter final :
    asked_to index (ABlit src dst (sx, sy) (sw, sh) (dx, dy) (dw, dh) filter final)
      (Moved (view_texels src (sx, sy, 0) (sw, sh, 1)) (view_texels dst (dx, dy, 0) (dw, dh, 1)))
| asked_clear views final v colour : view_for views index v -> (colour = true <-> ~ depth_or_stencil (v_format v)) ->
    asked_to index (AClear views final) (Cleared colour (i_id (v_image v)) (v_range v)).

(* The view an action reads, which it puts up to date first; the view it writes; the layout it leaves it in. *)
Definition reads (a : action) : option view := match a with ACopy s _ _ _ _ | ABlit s _ _ _ _ _ _ _ => Some s | _ => None end.
Definition writes (index : nat) (a : action) (d : view) : Prop :=
  match a with ACopy _ d' _ _ _ | ABlit _ d' _ _ _ _ _ _ => d = d' | AClear views _ => view_for views index d | AUser _ => False end.
Definition leaves (a : action) : N := match a with ACopy _ _ _ _ f | ABlit _ _ _ _ _ _ _ f | AClear _ f => f | AUser _ => L_UNDEFINED end.

(* The first registration for a view, between those before it and those after it. *)
Definition waiting_first (v : view) (l : list (N * view * action)) (pass : N) (a : action) (rest : list (N * view * action)) : Prop :=
  exists before w after, l = before ++ (pass, w, a) :: after /\ rest = before ++ after /\ v_id w = v_id v /\
    forall p' w' a', In (p', w', a') before -> v_id w' <> v_id v.

(* Using a view: the effects on images, and the registrations that remain.  The first registration for the
   view is consumed; when its pass is disabled its action is done, after using the view it reads. *)
Inductive used (enabled : N -> bool) (index : nat) : list (N * view * action) -> view -> list effect -> list (N * view * action) -> Prop :=
| used_none l v : (forall p w a, In (p, w, a) l -> v_id w <> v_id v) -> used enabled index l v [] l
| used_enabled l v p a rest : waiting_first v l p a rest -> enabled p = true -> used enabled index l v [] rest
| used_reads l v p a rest s first rest' x : waiting_first v l p a rest -> enabled p = false -> reads a = Some s ->
    used enabled index rest s first rest' -> asked_to index a x -> used enabled index l v (first ++ [x]) rest'
| used_clears l v p a rest x : waiting_first v l p a rest -> enabled p = false -> reads a = None ->
    asked_to index a x -> used enabled index l v [x] rest.

(* The actions the library does as asked: views of one layer, blits from corner (0, 0) to corner (0, 0). *)
Definition simple_action (index : nat) (a : action) : Prop :=
  match a with
  | ACopy s d _ _ _ => r_layers (v_range s) = 1 /\ r_layers (v_range d) = 1
  | ABlit s d so _ doff _ _ _ => r_layers (v_range s) = 1 /\ r_layers (v_range d) = 1 /\ so = (0, 0) /\ doff = (0, 0)
  | AClear views _ => exists v, view_for views index v
  | AUser _ => False
  end.
