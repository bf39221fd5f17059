(* Specification vocabulary for the declared inputs and outputs of a graph. *)
From Verif Require Export Model_Inout Spec_Device.
Local Open Scope N_scope.

(* The declarations made by a step, as inputs or as outputs: image, type of view, range and state. *)
Definition declares (out : bool) (x : gstep) : option (image * N * srange * lstate) :=
  match x, out with
  | SInput im vt r s, false | SGroupInput im vt r s, false | SOutput im vt r s, true | SGroupOutput im vt r s, true => Some (im, vt, r, s)
  | SInputView v s, false | SGroupInputView v s, false | SOutputView v s, true | SGroupOutputView v s, true => Some (v_image v, v_type v, v_range v, s)
  | _, _ => None
  end.
(* A declaration touches a subresource of an image: the layers of a 3D view are its slices. *)
Definition speaks_of (d : image * N * srange * lstate) (image layer mip : N) : Prop :=
  let '(im, vt, r, _) := d in i_id im = image /\ in_range (getVirtualRange im vt r) layer mip.
(* The last declaration made about a subresource in a history, if there is one, gives this state. *)
Definition last_said (out : bool) (l : list gstep) (image layer mip : N) (s : lstate) : Prop :=
  exists before x after im vt r, l = before ++ x :: after /\ declares out x = Some (im, vt, r, s) /\ speaks_of (im, vt, r, s) image layer mip /\
    forall y d, In y after -> declares out y = Some d -> ~ speaks_of d image layer mip.
Definition never_said (out : bool) (l : list gstep) (image layer mip : N) : Prop :=
  forall y d, In y l -> declares out y = Some d -> ~ speaks_of d image layer mip.
(* Ranges are not empty and do not wrap. *)
Definition proper_steps (l : list gstep) : Prop :=
  forall x out im vt r s, In x l -> declares out x = Some (im, vt, r, s) -> valid_range (getVirtualRange im vt r).
Definition asked (out : bool) (g : rgraph) (v : view) : lstate := if out then output_state g v else input_state g v.
(* A subresource of a view. *)
Definition part_of (v : view) (layer mip : N) : Prop := in_range (getVirtualRange (v_image v) (v_type v) (v_range v)) layer mip.

(* A pass that leaves a view alone: none of its attachments, and none of the implicit actions run for them, touches the view, and its
   body does not change its layout. *)
Definition leaves_alone (acts : list (view * action)) (v : view) (q : rpass) : Prop :=
  (forall a, In a (rp_images q) -> separate_views (attach_view a (rp_index q)) v) /\
  (forall a w, In a (rp_images q) -> touched acts (rp_index q) (attach_view a (rp_index q)) w -> separate_views w v) /\
  (forall c d k, view_in d v k -> view_in (after_all d (snd (rp_record q c (rp_index q)))) v k).
