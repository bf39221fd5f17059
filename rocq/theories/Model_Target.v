(* Model of the render passes and framebuffers.
   Sources: source/RenderGraph/RunnablePasses/RenderPassHolder.cpp (whole file), RenderPass.cpp:115-135,
   source/RenderGraph/RecordContext.cpp:88-97.
   Simplifications: no sample count, no allocation failure; a blend state and a clear value are the opaque number of the
   attachment (Model_Attach.v: ia_misc). *)
From Verif Require Export Model_Run.
Local Open Scope N_scope.

(* VkAttachmentDescription *)
Record adesc := { ad_format : N; ad_load : N; ad_store : N; ad_sload : N; ad_sstore : N; ad_initial : N; ad_final : N }.
(* RenderPassHolder.hpp:14-19: Entry *)
Record entry := { en_view : view; en_input : lstate; en_output : lstate }.
(* VkAttachmentReference: (index, layout).  VkSubpassDependency: (source state, destination state), the subpass being external
   on the source side for the first one and on the destination side for the second one. *)
Record rpinfo := { ri_descs : list adesc; ri_colours : list (N * N); ri_depth : option (N * N); ri_deps : list (pstate * pstate) }.
(* RenderPassHolder.hpp:89-101: PassData; 0 is the null handle *)
Record rdata := {
  rd_renderPass : N; rd_framebuffer : N; rd_area : N * N; rd_attachments : list attach; rd_clear : list N;
  rd_entries : list entry; rd_prev : pstate; rd_next : pstate }.
Definition new_rdata : rdata :=
  {| rd_renderPass := 0; rd_framebuffer := 0; rd_area := (0, 0); rd_attachments := []; rd_clear := []; rd_entries := [];
     rd_prev := no_pstate; rd_next := no_pstate |}.

(* Calls to the driver *)
Inductive tevent :=
| TRenderPass (h : N) (info : rpinfo)
| TFramebuffer (h renderPass : N) (views : list view) (width height layers : N)
| TDestroyRenderPass (h : N) | TDestroyFramebuffer (h : N)
| TBegin (renderPass framebuffer : N) (area : N * N) (clears : list N) | TEnd.

(* RenderPassHolder.hpp: the members; [tg_nexth] and [tg_log] are the driver *)
Record target := { tg_size : N * N; tg_passes : list rdata; tg_blend : list N; tg_layers : N; tg_nexth : N; tg_log : list tevent }.
Definition new_target (size : N * N) (maxPassCount : nat) : target :=
  {| tg_size := size; tg_passes := repeat new_rdata maxPassCount; tg_blend := []; tg_layers := 0; tg_nexth := 1; tg_log := [] |}.

(* RecordContext.cpp:88-97: setLayoutState and getLayoutState of a view *)
Definition set_view (c : rctx) (v : view) (s : lstate) : rctx := rc_setLayoutState c (v_image v) (v_type v) (v_range v) s.
Definition get_view (c : rctx) (v : view) : lstate := rc_getLayoutState c (v_image v) (v_type v) (v_range v).

(* RenderPassHolder.cpp:250-252: the attachments that are targets *)
Definition isTarget (a : attach) : bool := orb (isDepthAttach a) (orb (isStencilAttach a) (isColourAttach a)).

(* The lists filled by doCreateRenderPass *)
Record rpbuild := { rb_ctx : rctx; rb_descs : list adesc; rb_entries : list entry; rb_clear : list N; rb_blend : list N;
                    rb_colours : list (N * N); rb_depth : N * N }.
(* RenderPassHolder.cpp:20-60: addAttach *)
Definition addAttach (separate : bool) (a : attach) (v : view) (from next : lstate) (b : rpbuild) : rpbuild * (N * N) :=
  let d := {| ad_format := v_format v;
              ad_load := if N.eqb (ls_layout from) L_UNDEFINED then LO_CLEAR else ia_load a;
              ad_store := ia_store a; ad_sload := ia_sload a; ad_sstore := ia_sstore a;
              ad_initial := ls_layout from; ad_final := ls_layout next |} in
  ({| rb_ctx := fold_left (fun c s => set_view c s next) (match v_source v with [] => [v] | l => l end) (rb_ctx b);
      rb_descs := rb_descs b ++ [d];
      rb_entries := rb_entries b ++ [{| en_view := v; en_input := from; en_output := next |}];
      rb_clear := rb_clear b ++ [ia_misc a]; rb_blend := rb_blend b; rb_colours := rb_colours b; rb_depth := rb_depth b |},
   (N.of_nat (length (rb_descs b)), a_getImageLayout a separate)).
Definition with_ctx (b : rpbuild) (c : rctx) : rpbuild :=
  {| rb_ctx := c; rb_descs := rb_descs b; rb_entries := rb_entries b; rb_clear := rb_clear b; rb_blend := rb_blend b;
     rb_colours := rb_colours b; rb_depth := rb_depth b |}.
Definition with_depth (b : rpbuild) (r : N * N) : rpbuild :=
  {| rb_ctx := rb_ctx b; rb_descs := rb_descs b; rb_entries := rb_entries b; rb_clear := rb_clear b; rb_blend := rb_blend b;
     rb_colours := rb_colours b; rb_depth := r |}.
(* RenderPassHolder.cpp:62-80, 276-286: with the blend state *)
Definition with_colour (b : rpbuild) (blend : N) (r : N * N) : rpbuild :=
  {| rb_ctx := rb_ctx b; rb_descs := rb_descs b; rb_entries := rb_entries b; rb_clear := rb_clear b; rb_blend := rb_blend b ++ [blend];
     rb_colours := rb_colours b ++ [r]; rb_depth := rb_depth b |}.

(* RenderPassHolder.cpp:248-290: one attachment of the pass *)
Definition target_step (e : env) (g : rgraph) (p : rpass) (index : nat) (b : rpbuild) (a : attach) : rpbuild :=
  if isTarget a then
    let v := attach_view a index in
    let r := resolveView v index in
    let '(c, current) := getCurrentLayoutState g (rb_ctx b) (v_image r) (v_type r) (v_range r) in
    let next := getNextLayoutState e g c p r in
    let from := if isInput a then current else makeLayoutState L_UNDEFINED in
    let '(b, ref) := addAttach (e_separate e) a v from next (with_ctx b c) in
    if orb (isDepthAttach a) (isStencilAttach a) then with_depth b ref else with_colour b (ia_misc a) ref
  else b.
Definition build_targets (e : env) (g : rgraph) (p : rpass) (index : nat) (c : rctx) : rpbuild :=
  fold_left (target_step e g p index) (rp_images p)
    {| rb_ctx := c; rb_descs := []; rb_entries := []; rb_clear := []; rb_blend := []; rb_colours := []; rb_depth := (0, 0) |}.

(* RenderPassHolder.cpp:305-321: the two external dependencies *)
Definition colour_output_state : pstate := {| ps_access := N.lor A_COLOR_WRITE A_COLOR_READ; ps_stage := S_COLOR_OUTPUT |}.
Definition subpass_deps (prev next : pstate) : list (pstate * pstate) := [(prev, colour_output_state); (colour_output_state, next)].

Fixpoint set_nth {A} (i : nat) (x : A) (l : list A) : list A :=
  match l, i with [], _ => [] | _ :: r, O => x :: r | y :: r, S i => y :: set_nth i x r end.
Definition pass_data (t : target) (index : nat) : rdata := nth index (tg_passes t) new_rdata.

(* RenderPassHolder.cpp:114-135: PassData::cleanup: what the driver is asked *)
Definition cleanup_events (d : rdata) : list tevent :=
  (if N.eqb (rd_framebuffer d) 0 then [] else [TDestroyFramebuffer (rd_framebuffer d)]) ++
  (if N.eqb (rd_renderPass d) 0 then [] else [TDestroyRenderPass (rd_renderPass d)]).

(* RenderPassHolder.cpp:350-376: doInitialiseRenderArea; the extents are those of the first view of each attachment *)
Definition level_extent (v : view) : N * N :=
  (N.shiftr (i_width (v_image v)) (r_mip (v_range v)), N.shiftr (i_height (v_image v)) (r_mip (v_range v))).
Definition render_area (size : N * N) (images : list attach) : N * N :=
  fold_left (fun wh a => if isTarget a then let ext := level_extent (attach_view a 0) in (N.max (fst wh) (fst ext), N.max (snd wh) (snd ext)) else wh)
    images size.
Definition render_layers (images : list attach) : N :=
  fold_left (fun n a => if isTarget a then N.max n (r_layers (v_range (attach_view a 0))) else n) images 1.

(* RenderPassHolder.cpp:82-93: equality of pipeline states, difference of layout states *)
Definition pstate_eqb (a b : pstate) : bool := andb (N.eqb (ps_access a) (ps_access b)) (N.eqb (ps_stage a) (ps_stage b)).
Definition lstate_differs (a b : lstate) : bool :=
  orb (negb (N.eqb (ls_layout a) (ls_layout b)))
      (orb (negb (N.eqb (ps_access (ls_state a)) (ps_access (ls_state b))))
           (andb (negb (N.eqb (ps_access (ls_state a)) 0)) (negb (N.eqb (ps_stage (ls_state a)) (ps_stage (ls_state b)))))).
(* RenderPassHolder.cpp:95-109: checkAttaches *)
Definition checkAttaches (c : rctx) (entries : list entry) (index : nat) : bool :=
  forallb (fun x => negb (let s := get_view c (resolveView (en_view x) index) in
                          andb (lstate_differs s (en_input x)) (negb (N.eqb (ls_layout s) L_UNDEFINED)))) entries.

(* RenderPassHolder.cpp:159-186: initialise; the boolean tells whether a render pass was made *)
Definition tg_initialise (e : env) (g : rgraph) (p : rpass) (index : nat) (t : target) (c : rctx) : target * rctx * bool :=
  let d := pass_data t index in
  let prev := rc_prevState c in
  let next := rc_nextState c in
  if andb (andb (negb (N.eqb (rd_renderPass d) 0)) (checkAttaches c (rd_entries d) index))
          (andb (pstate_eqb (rd_prev d) prev) (pstate_eqb (rd_next d) next))
  then (t, c, false)
  else
    let b := build_targets e g p index c in
    let h := tg_nexth t in
    let info := {| ri_descs := rb_descs b; ri_colours := rb_colours b;
                   ri_depth := if N.eqb (snd (rb_depth b)) 0 then None else Some (rb_depth b);
                   ri_deps := subpass_deps prev next |} in
    let d' := {| rd_renderPass := h; rd_framebuffer := 0; rd_area := render_area (tg_size t) (rp_images p);
                 rd_attachments := filter isTarget (rp_images p); rd_clear := rb_clear b; rd_entries := rb_entries b;
                 rd_prev := prev; rd_next := next |} in
    ({| tg_size := tg_size t; tg_passes := set_nth index d' (tg_passes t); tg_blend := rb_blend b;
        tg_layers := render_layers (rp_images p); tg_nexth := h + 1; tg_log := tg_log t ++ cleanup_events d ++ [TRenderPass h info] |},
     rb_ctx b, true).

(* RenderPassHolder.cpp:378-412: doCreateFramebuffer, through getFramebuffer: made once for a render pass *)
Definition tg_framebuffer (index : nat) (t : target) : target * N :=
  let d := pass_data t index in
  if N.eqb (rd_framebuffer d) 0 then
    let h := tg_nexth t in
    let d' := {| rd_renderPass := rd_renderPass d; rd_framebuffer := h; rd_area := rd_area d; rd_attachments := rd_attachments d;
                 rd_clear := rd_clear d; rd_entries := rd_entries d; rd_prev := rd_prev d; rd_next := rd_next d |} in
    ({| tg_size := tg_size t; tg_passes := set_nth index d' (tg_passes t); tg_blend := tg_blend t; tg_layers := tg_layers t;
        tg_nexth := h + 1;
        tg_log := tg_log t ++ [TFramebuffer h (rd_renderPass d) (map (fun a => attach_view a index) (rd_attachments d))
                                 (fst (rd_area d)) (snd (rd_area d)) (tg_layers t)] |}, h)
  else (t, rd_framebuffer d).

Definition tg_emit (t : target) (l : list tevent) : target :=
  {| tg_size := tg_size t; tg_passes := tg_passes t; tg_blend := tg_blend t; tg_layers := tg_layers t; tg_nexth := tg_nexth t; tg_log := tg_log t ++ l |}.
(* RenderPassHolder.cpp:188-221: begin *)
Definition tg_begin (index : nat) (t : target) (c : rctx) : target * rctx :=
  let c := fold_left (fun c x => set_view c (resolveView (en_view x) index) (en_input x)) (rd_entries (pass_data t index)) c in
  let '(t, fb) := tg_framebuffer index t in
  let d := pass_data t index in
  (tg_emit t [TBegin (rd_renderPass d) fb (rd_area d) (rd_clear d)], c).
(* RenderPassHolder.cpp:223-236: end *)
Definition tg_end (index : nat) (t : target) (c : rctx) : target * rctx :=
  (tg_emit t [TEnd], fold_left (fun c x => set_view c (resolveView (en_view x) index) (en_output x)) (rd_entries (pass_data t index)) c).

(* What the driver knows about the attachments of the render pass begun: view of the framebuffer, initial layout, final layout
   and operations of the description (those given by addAttach, RenderPassHolder.cpp:33-43). *)
Definition described_ops (x : entry) (a : attach) : tops :=
  {| to_load := if N.eqb (ls_layout (en_input x)) L_UNDEFINED then LO_CLEAR else ia_load a;
     to_store := ia_store a; to_sload := ia_sload a; to_sstore := ia_sstore a |}.
Definition begun (d : rdata) : list (view * N * N * tops) :=
  map (fun xa => (en_view (fst xa), ls_layout (en_input (fst xa)), ls_layout (en_output (fst xa)), described_ops (fst xa) (snd xa)))
      (combine (rd_entries d) (rd_attachments d)).
(* RenderPass.cpp:115-135: doRecordInto; [body] is the callback of the user *)
Definition tg_record (e : env) (g : rgraph) (p : rpass) (index : nat) (body : rctx -> nat -> rctx * list cmd) (t : target) (c : rctx) :
    target * rctx * list cmd :=
  let '(t, c, _) := tg_initialise e g p index t c in
  let '(t, c) := tg_begin index t c in
  let infos := begun (pass_data t index) in
  let '(c, l) := body c index in
  let '(t, c) := tg_end index t c in
  (t, c, CBeginRenderPass infos :: l ++ [CEndRenderPass infos]).

(* RenderPassHolder.cpp:152-157: destructor *)
Definition tg_destroy (t : target) : target := tg_emit t (flat_map cleanup_events (tg_passes t)).
