(* Specification vocabulary for the assertions: the aspects of the formats of Vulkan. *)
From Verif Require Export Model_Assert.
Local Open Scope N_scope.

(* VK_IMAGE_ASPECT_COLOR_BIT is bit 0, DEPTH bit 1, STENCIL bit 2.  Formats 124 (D16_UNORM) to 130
   (D32_SFLOAT_S8_UINT) are those of depth and stencil: 127 is S8_UINT, without depth, 128 to 130 have both. *)
Inductive has_aspect (format : N) : N -> Prop :=
| has_colour : format < 124 \/ 130 < format -> has_aspect format 0
| has_depth : 124 <= format <= 130 -> format <> 127 -> has_aspect format 1
| has_stencil : 127 <= format <= 130 -> has_aspect format 2.
Definition names (v : view) (k : N) : Prop := N.testbit (r_aspect (v_range v)) k = true.
(* What a view should be: it names aspects of its format, at least one, and no other. *)
Definition sound_view (v : view) : Prop := (exists k, names v k) /\ forall k, names v k -> has_aspect (v_format v) k.
(* The aspect that a method of declaration is about: bit 0 for colour targets, 1 for depth, 2 for stencil. *)
Definition about (m : image_method) (k : N) : Prop :=
  match m with
  | addInputColourView | addInOutColourView | addOutputColourView => k = 0
  | addInputDepthView | addInOutDepthView | addOutputDepthView => k = 1
  | addInputStencilView | addInOutStencilView | addOutputStencilView => k = 2
  | addInputDepthStencilView | addInOutDepthStencilView | addOutputDepthStencilView => k = 1 \/ k = 2
  | _ => False
  end.
