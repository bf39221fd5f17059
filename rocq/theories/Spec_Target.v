(* Specification vocabulary for render passes and framebuffers. *)
From Verif Require Export Model_Target Spec_Device.
Local Open Scope N_scope.

(* The attachments a pass renders to, in declaration order, and those of them that are depth or stencil attachments. *)
Definition targets (p : rpass) : list attach := filter isTarget (rp_images p).
Definition depth_target (a : attach) : bool := orb (isDepthAttach a) (isStencilAttach a).
(* Elements with their position. *)
Fixpoint positions (n : N) (l : list attach) : list (N * attach) := match l with [] => [] | a :: r => (n, a) :: positions (n + 1) r end.
(* VkAttachmentReference: the position of an attachment and its layout during the render pass. *)
Definition reference (separate : bool) (x : N * attach) : N * N := (fst x, a_getImageLayout (snd x) separate).

(* The description of an attachment: its format and its operations; nothing is loaded when the contents are undefined; contents
   that are not an input are undefined. *)
Definition describes (index : nat) (a : attach) (d : adesc) : Prop :=
  ad_format d = v_format (attach_view a index) /\ ad_store d = ia_store a /\ ad_sload d = ia_sload a /\ ad_sstore d = ia_sstore a /\
  (ad_initial d = L_UNDEFINED -> ad_load d = LO_CLEAR) /\ (ad_initial d <> L_UNDEFINED -> ad_load d = ia_load a) /\
  (isInput a = false -> ad_initial d = L_UNDEFINED).
(* The methods that declare targets. *)
Definition target_method (m : image_method) : bool :=
  match m with
  | addInputColourView | addInOutColourView | addOutputColourView
  | addInputDepthView | addInOutDepthView | addOutputDepthView
  | addInputDepthStencilView | addInOutDepthStencilView | addOutputDepthStencilView
  | addInputStencilView | addInOutStencilView | addOutputStencilView => true
  | _ => false
  end.

(* A history of uses of the holder of a render pass. *)
Record use := { us_env : env; us_graph : rgraph; us_pass : rpass; us_body : rctx -> nat -> rctx * list cmd; us_ctx : rctx }.
Definition use_target (t : target) (u : use) : target :=
  fst (fst (tg_record (us_env u) (us_graph u) (us_pass u) (rp_index (us_pass u)) (us_body u) t (us_ctx u))).
Definition used (size : N * N) (count : nat) (l : list use) : target := fold_left use_target l (new_target size count).

(* Driver calls on the handles. *)
Definition made_by (x : tevent) : list N := match x with TRenderPass h _ | TFramebuffer h _ _ _ _ _ => [h] | _ => [] end.
Definition destroyed_by (x : tevent) : list N := match x with TDestroyRenderPass h | TDestroyFramebuffer h => [h] | _ => [] end.
Definition used_by (x : tevent) : list N := match x with TFramebuffer _ r _ _ _ _ => [r] | TBegin r f _ _ => [r; f] | _ => [] end.
Definition made (l : list tevent) : list N := flat_map made_by l.
Definition destroyed (l : list tevent) : list N := flat_map destroyed_by l.
(* Every handle given to the driver was made before and is not destroyed yet. *)
Definition handles_alive (log : list tevent) : Prop := forall l1 x l2 h, log = l1 ++ x :: l2 ->
  In h (used_by x ++ destroyed_by x) -> In h (made l1) /\ ~ In h (destroyed l1).

(* A render pass that expects an attachment in state [expected] can be used when the recording knows nothing of the attachment,
   or knows the same layout and the same pending accesses, in the same stages when there are any. *)
Definition still_expected (known expected : lstate) : Prop :=
  ls_layout known = L_UNDEFINED \/
  (ls_layout known = ls_layout expected /\ ps_access (ls_state known) = ps_access (ls_state expected) /\
   (ps_access (ls_state known) = 0 \/ ps_stage (ls_state known) = ps_stage (ls_state expected))).
