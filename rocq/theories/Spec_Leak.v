(* Vocabulary of C105: the objects that were created and never destroyed. *)
From Verif Require Export Model_Leak Spec_Fail.
Local Open Scope N_scope.
Local Open Scope list_scope.

(* The objects still alive, in the order of their creations *)
Definition survivors (log : list event) : list (object * N) :=
  flat_map (fun e => match e with
                     | Created o x => if existsb (N.eqb x) (destroyed log) then [] else [(o, x)]
                     | Destroyed _ => []
                     end) log.
(* What is said of an object: its kind and its name; the memory of an image is not told apart from the image. *)
Definition told_of (nm : namings) (e : object * N) : list string :=
  match fst e with
  | OView v => [leak_line "VkImageView" (nm_view nm v)]
  | OImage i => [leak_line "VkImage" (nm_image nm i)]
  | OImageMemory _ => []
  | OSampler _ => [leak_line "VkSampler" (nm_sampler nm (snd e))]
  | OQuad _ => [leak_line "VkBuffer" (nm_buffer nm (snd e))]
  | OQuadMemory b => [leak_line "VkDeviceMemory" (nm_buffer nm b)]
  end.
