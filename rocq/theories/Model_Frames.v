(* Model of recordings one after the other, with the render passes and framebuffers each pass keeps from one to the next.
   Sources: source/RenderGraph/RunnableGraph.cpp:287-345 (record), RunnablePass.cpp:363-501 (recordInto),
   RunnablePasses/RenderPass.cpp:115-135 (doRecordInto), RunnablePasses/RenderPassHolder.cpp:159-236.
   Simplification: as in Model_Target.v, no sample count and no allocation failure. *)
From Verif Require Export Spec_Device.
Local Open Scope N_scope.

(* A pass of the graph: RenderPass.hpp when it has a sub-pass callback, otherwise any other runnable pass, whose body is rp_record. *)
Record fpass := { fp_pass : rpass; fp_render : option (rctx -> nat -> rctx * list cmd) }.
(* RenderPass.cpp:115-135: what the pass records, with the holder it has *)
Definition live (e : env) (g : rgraph) (xt : fpass * target) : rpass :=
  match fp_render (fst xt) with Some body => render_pass e g (fp_pass (fst xt)) body (snd xt) | None => fp_pass (fst xt) end.

(* RunnablePass.cpp:389-486: the record context when the body of a pass is recorded *)
Definition body_context (e : env) (g : rgraph) (p : rpass) (c : rctx) : rctx :=
  fst ((c, []) >>> run_all (record_image e g p) (rp_images p) >>> run_all (record_buffer p) (rp_buffers p)
       >>> run_all (fun (f : rctx -> nat -> rctx * list cmd) c => f c (rp_index p)) (rp_pre p)).
(* RenderPass.cpp:115-135: the holder after the pass was recorded with context [c]; a disabled pass records nothing (RunnablePass.cpp:372) *)
Definition kept_target (e : env) (g : rgraph) (xt : fpass * target) (c : rctx) : target :=
  match fp_render (fst xt) with
  | Some body =>
      if e_enabled e (rp_id (fp_pass (fst xt)))
      then fst (fst (tg_record e g (fp_pass (fst xt)) (rp_index (fp_pass (fst xt))) body (snd xt) (body_context e g (fp_pass (fst xt)) c)))
      else snd xt
  | None => snd xt
  end.
(* RunnableGraph.cpp:311-338: the loop over the passes *)
Fixpoint kept_targets (e : env) (g : rgraph) (l : list (fpass * target)) (c : rctx) : list target :=
  match l with
  | [] => []
  | xt :: rest =>
      let c1 := prepare e g (live e g xt) (map (live e g) rest) c in
      kept_target e g xt c1 :: kept_targets e g rest (fst (recordInto e g (live e g xt) c1))
  end.
(* RunnableGraph.cpp:287-345: one recording: the graph after it, its commands, the holders after it *)
Definition record_frame (e : env) (g : rgraph) (deps : list rctx) (l : list (fpass * target)) : rgraph * list cmd * list target :=
  let passes := map (live e g) l in
  (fst (fst (record_graph e g deps passes)), snd (fst (record_graph e g deps passes)), kept_targets e g l (start_context e deps passes)).
