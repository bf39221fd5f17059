(* Model of the messages logged when the resource handler is destroyed.
   Sources: source/RenderGraph/ResourceHandler.cpp:104-140. *)
From Coq Require Export String.
From Verif Require Export Model_Fail.
Local Open Scope N_scope.

(* The names of the objects.  Simplification: the name of an image or a view is a function of its identifier (it is in the data the identifier
   points to), the name of a sampler or of a vertex buffer one of its handle (it is stored with it). *)
Record namings := { nm_image : N -> string; nm_view : N -> string; nm_sampler : N -> string; nm_buffer : N -> string }.

(* ResourceHandler.cpp:110, 116, 124, 130, 137: snprintf( "Leaked [kind](%.900s)" ) in 1024 characters *)
Definition leak_line (kind name : string) : string := ("Leaked [" ++ kind ++ "](" ++ substring 0 900 name ++ ")")%string.

(* ResourceHandler.cpp:104-140: the destructor; the order inside each of the four loops is the one of a hash map.  Nothing is destroyed. *)
Definition rh_leaks (nm : namings) (h : rhandler) : list string :=
  (map (fun e => leak_line "VkImageView" (nm_view nm (fst e))) (rh_views h) ++
   map (fun e => leak_line "VkImage" (nm_image nm (fst e))) (rh_images h) ++
   flat_map (fun e : N * N => (if N.eqb (snd e) 0 then [] else [leak_line "VkDeviceMemory" (nm_buffer nm (fst e))]) ++
                              (if N.eqb (fst e) 0 then [] else [leak_line "VkBuffer" (nm_buffer nm (fst e))])) (rh_buffers h) ++
   map (fun e => leak_line "VkSampler" (nm_sampler nm (fst e))) (rh_samplers h))%list.
