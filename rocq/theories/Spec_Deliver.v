(* Specification vocabulary: passes that do not touch an image. *)
From Verif Require Export Spec_Sync Spec_Flow.
Local Open Scope N_scope.

(* A callback of the user whose commands neither discard nor overwrite the contents of a view. *)
Definition harmless (v : view) (f : rctx -> nat -> rctx * list cmd) : Prop := forall c i, Forall (preserves v) (snd (f c i)).
(* A pass that has no attachment on the view, and whose callbacks are harmless. *)
Definition aside (v : view) (p : rpass) : Prop :=
  (forall w, In w (pass_views p) -> separate_views w v) /\
  forall f, In f (rp_pre p) \/ In f (rp_post p) \/ f = rp_record p -> harmless v f.
