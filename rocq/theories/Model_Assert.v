(* The assertions of the image attachments. *)
From Verif Require Export Model_Attach.
Local Open Scope N_scope.

(* Attachment.cpp:219-224: view( index ) on the list of views, with the default index 0 (Attachment.hpp).
   None when the list is empty: indexing it is undefined in C++. *)
Definition first_view (l : list view) : option view := match l with [] => None | v :: _ => Some v end.
(* Attachment.cpp:204-211: first assertion of the constructor, on that view *)
Definition aspect_asserted (v : view) : bool :=
  let aspect := r_aspect (v_range v) in
  orb (orb (orb
    (andb (negb (N.eqb (N.land aspect ASPECT_COLOR) 0)) (isColourFormat (v_format v)))
    (andb (negb (N.eqb (N.land aspect (N.lor ASPECT_DEPTH ASPECT_STENCIL)) 0)) (isDepthStencilFormat (v_format v))))
    (andb (negb (N.eqb (N.land aspect ASPECT_DEPTH) 0)) (isDepthFormat (v_format v))))
    (andb (negb (N.eqb (N.land aspect ASPECT_STENCIL) 0)) (isStencilFormat (v_format v))).
(* Attachment.cpp:212-216: second assertion, on the flags and the operations given *)
Definition operations_asserted (a : attach) : bool :=
  orb (andb (negb (i_isSampled (ia_flags a))) (andb (negb (i_isTransition (ia_flags a))) (negb (i_isTransfer (ia_flags a)))))
      (andb (andb (N.eqb (ia_load a) LO_DONT_CARE) (N.eqb (ia_store a) SO_DONT_CARE))
            (andb (N.eqb (ia_sload a) LO_DONT_CARE) (N.eqb (ia_sstore a) SO_DONT_CARE))).
(* Attachment.cpp:185-217: the constructor of an image attachment with assertions enabled: None is undefined
   behaviour, Some false an assertion failure.  The attachment built is given. *)
Definition asserted (a : attach) : option bool :=
  match first_view (ia_views a) with
  | None => None
  | Some v => Some (if aspect_asserted v then operations_asserted a else false)
  end.
