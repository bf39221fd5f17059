(* C100: frames one after the other, with render passes kept from one to the next. *)
From Verif Require Import Spec_Frames Proof_Layout Proof_Record Proof_Run2 Proof_Run3 Proof_Device Proof_Device2 Proof_Device3 Proof_Device4 Proof_Device5 Proof_Device6 Proof_Frames Proof_Frames2 Proof_Frames3 Props_Record Props_Device.
From Coq Require Import PeanoNat.
Local Open Scope N_scope.

(** Frame after frame, whatever passes are enabled, whatever the indices of the passes, with the Vulkan render passes kept or made again as
    the code decides: every command is given the real layouts. *)
Theorem C100_render_passes_kept_partial : forall F shape sizes g d frames,
  regions F -> (forall v, F v -> known_layout (g_final g) v = L_UNDEFINED \/ view_in d v (known_layout (g_final g) v)) ->
  length sizes = length shape ->
  let ts := map (fun s : (N * N) * nat => new_target (fst s) (snd s)) sizes in
  frames_may F shape g ts d frames -> rframes_legal g ts frames.
Proof.
  intros F shape sizes g d frames HF Hf Hl ts H. apply (frames_all F HF shape frames g ts d Hf); [|exact H]. unfold ts. clear - Hl. revert shape Hl.
  induction sizes as [|s l IH]; intros [|x m] Hl; try discriminate Hl; constructor; [apply held_new|apply IH]. injection Hl as Hl. exact Hl.
Qed.
Print Assumptions C100_render_passes_kept_partial.

(* The passes of the library that are not render passes keep what is known. *)
Theorem C100_bodies : forall e F p,
  regions F ->
  (neutral_fun (rp_record p) -> keeps_known F p) /\
  (forall src dst so ss dof ds filter, (forall c i, rp_record p c i = image_blit (attach_view src i) (attach_view dst i) so ss dof ds filter c) -> keeps_known F p) /\
  (forall src dst off size, (forall c i, rp_record p c i = buffer_to_image src (attach_view dst i) i off size c) -> keeps_known F p) /\
  (forall src dst off size, (forall c i, rp_record p c i = image_to_buffer (attach_view src i) dst i off size c) -> keeps_known F p) /\
  (forall size final, (forall v, In v (pass_views p) -> F v) -> (forall c, rp_record p c (rp_index p) = image_copies e size final (pass_views p) c) -> keeps_known F p).
Proof.
  intros e F p HF. split; [intros H c v Fv K; rewrite (proj1 (H c (rp_index p))); exact K|]. split; [intros src dst so ss dof ds filter E c v Fv K; rewrite E; exact K|].
  split; [intros src dst off size E c v Fv K; rewrite E; exact K|]. split; [intros src dst off size E c v Fv K; rewrite E; exact K|].
  intros size final Hv E c v Fv K. rewrite E. apply (grows_copies F HF); assumption.
Qed.
Print Assumptions C100_bodies.

(* Two render passes on the same image, the second one adding to what the first one drew, then a copy; three frames, the last two without
   the first draw being anything new: the render passes made in the first frame are kept. *)
Definition first_draw : fpass := {| fp_pass := marker_pass 1 [declare_image addOutputColourView 1 [lv 1 1] 0 0 0 9] [] false; fp_render := Some (fun c _ => (c, [CUser 1])) |}.
Definition second_draw : fpass := {| fp_pass := marker_pass 4 [declare_image addInOutColourView 4 [lv 1 1] 0 0 0 9; declare_image addSampledView 4 [vw 4 1 (rng 1 4 0 6)] 0 0 0 0] [] false;
  fp_render := Some (fun c _ => (c, [CUser 2])) |}.
Definition then_copy : fpass := {| fp_pass := copy_pass; fp_render := None |}.
Definition drawn_passes : list fpass := [first_draw; second_draw; then_copy].
Definition drawn_shape : list (list attach) := map (fun x => rp_images (fp_pass x)) drawn_passes.
Definition drawn_sizes : list ((N * N) * nat) := [((16, 16), 1%nat); ((16, 16), 1%nat); ((16, 16), 1%nat)].
Definition drawn_targets : list target := map (fun s : (N * N) * nat => new_target (fst s) (snd s)) drawn_sizes.
Fixpoint drawn_frames (n : nat) (g : rgraph) (ts : list target) (d : layouts) : list rframe :=
  match n with
  | O => []
  | S n => {| rf_env := all_on; rf_deps := []; rf_passes := drawn_passes; rf_start := d |} ::
           (let '(g', cmds, ts') := record_frame all_on g [] (combine drawn_passes ts) in drawn_frames n g' ts' (after_all d cmds))
  end.
Lemma drawn_good g : forall x, In x drawn_passes -> good_pass all_on g ex_regions [] x.
Proof.
  assert (In1 : ex_regions (lv 1 1)) by (left; reflexivity). assert (In2 : ex_regions (lv 2 2)) by (right; left; reflexivity).
  assert (In4 : ex_regions (vw 4 1 (rng 1 4 0 6))) by (right; right; right; reflexivity).
  assert (S12 : separate_views (lv 1 1) (lv 2 2)) by (left; discriminate). assert (S21 : separate_views (lv 2 2) (lv 1 1)) by (left; discriminate).
  assert (S14 : separate_views (lv 1 1) (vw 4 1 (rng 1 4 0 6))) by (right; intros layer mip; unfold in_range; cbn; lia).
  assert (S41 : separate_views (vw 4 1 (rng 1 4 0 6)) (lv 1 1)) by (right; intros layer mip; unfold in_range; cbn; lia).
  intros x [<-|[<-|[<-|[]]]]; (split; [|split; [|split; [intros f [[]|[]]|split; [apply (no_actions all_on ex_regions _ [])|split; [apply (no_actions all_on ex_regions)|]]]]]).
  - intros v [<-|[]]; assumption.
  - constructor; [intros y []|constructor].
  - split; [|intros c i; split; [reflexivity|constructor; [apply neutral_user|constructor]]].
    split; [intros v [<-|[]]; assumption|]. split; [intros a [<-|[]]; left; reflexivity|]. split; [intros a [<-|[]]; discriminate|constructor; [intros y []|constructor]].
  - intros v [<-|[<-|[]]]; assumption.
  - constructor; [intros y [<-|[]]; split; assumption|constructor; [intros y []|constructor]].
  - split; [|intros c i; split; [reflexivity|constructor; [apply neutral_user|constructor]]].
    split; [intros v [<-|[<-|[]]]; assumption|]. split; [intros a [<-|[<-|[]]]; left; reflexivity|]. split; [intros a [<-|[<-|[]]]; discriminate|].
    constructor; [intros y [<-|[]]; split; assumption|constructor; [intros y []|constructor]].
  - intros v [<-|[<-|[]]]; assumption.
  - constructor; [intros y [<-|[]]; split; assumption|constructor; [intros y []|constructor]].
  - split; [apply (two_passes_sound g)|].
    apply (proj2 (proj2 (proj2 (proj2 (C100_bodies all_on ex_regions copy_pass ex_regions_ok)))) (16, 16, 1) L_SHADER_READ_ONLY); [intros v [<-|[<-|[]]]; assumption|reflexivity].
Qed.
Lemma drawn_lengths e g xts c : length (kept_targets e g xts c) = length xts.
Proof. revert c. induction xts as [|x l IH]; intro c; [reflexivity|]. cbn [kept_targets length]. f_equal. apply IH. Qed.
Lemma drawn_may n : forall g ts d, g_inputs g = [] -> length ts = 3%nat -> (forall t, In t ts -> length (tg_passes t) = 1%nat) -> frames_may ex_regions drawn_shape g ts d (drawn_frames n g ts d).
Proof.
  induction n as [|n IH]; intros g ts d Gi Lt Hp; [exact I|]. cbn [drawn_frames frames_may rf_env rf_deps rf_passes rf_start]. cbv zeta.
  split; [reflexivity|]. split; [apply drawn_good|]. split; [|split; [|split; [|split]]].
  - intros i x t Hx Ht Hr. split; [|right].
    + rewrite (Hp t (nth_error_In _ _ Ht)). destruct i as [|[|[|i]]]; try (injection Hx as <-; cbn; lia). destruct i; discriminate Hx.
    + destruct i as [|[|[|i]]]; [| | |destruct i; discriminate Hx]; injection Hx as <-.
      * intros a [<-|[]] _ Ia. discriminate Ia.
      * intros a [<-|[<-|[]]] Ta Ia; [|discriminate Ta]. right. exists first_draw. split; [left; reflexivity|]. split; [reflexivity|].
        exists (declare_image addOutputColourView 1 [lv 1 1] 0 0 0 9). split; [left; reflexivity|]. split; [repeat split|]. right. split; [reflexivity|discriminate].
      * exfalso. apply Hr. reflexivity.
  - intros v Fv. left. unfold start_context, known_layout, rc_getLayoutState. destruct ts as [|t1 ts]; [discriminate Lt|]. reflexivity.
  - intros v _ H. exfalso. apply H. unfold input_layout. rewrite Gi. reflexivity.
  - intros v _ _ k H. exact H.
  - destruct (record_frame all_on g [] (combine drawn_passes ts)) as [[g' cmds] ts'] eqn:E. unfold record_frame in E. injection E as Eg _ Et. apply IH.
    + rewrite <- Eg. unfold record_graph. destruct (record_loop _ _ _ _) as [[? ?] ?]. cbn [fst g_inputs]. exact Gi.
    + rewrite <- Et, drawn_lengths. destruct ts as [|t1 [|t2 [|t3 [|t4 ts]]]]; try discriminate Lt. reflexivity.
    + destruct ts as [|t1 [|t2 [|t3 [|t4 ts]]]]; try discriminate Lt. clear IH. intros t Ht. rewrite <- Et in Ht. cbn [drawn_passes combine kept_targets] in Ht.
      set (ca := prepare _ _ _ _ _) in Ht. set (cb := prepare _ _ _ _ _) in Ht. set (cc := prepare _ _ _ _ _) in Ht. clearbody ca cb cc. clear Eg Et.
      assert (Len : forall p body t c, length (tg_passes (fst (fst (tg_record all_on g p 0 body t c)))) = length (tg_passes t)).
      { intros p body t0 c0. unfold tg_record. destruct (tg_initialise all_on g p 0 t0 c0) as [[u1 w1] m] eqn:E1.
        assert (L1 : length (tg_passes u1) = length (tg_passes t0)). { unfold tg_initialise in E1. destruct (andb _ _); injection E1 as <- _ _; [reflexivity|]. cbn [tg_passes]. destruct (tg_passes t0); reflexivity. }
        unfold tg_begin. destruct (tg_framebuffer 0 u1) as [u2 fb] eqn:E2.
        assert (L2 : length (tg_passes u2) = length (tg_passes u1)). { unfold tg_framebuffer in E2. destruct (N.eqb _ _); injection E2 as <- _; [|reflexivity]. cbn [tg_passes]. destruct (tg_passes u1); reflexivity. }
        cbv beta iota zeta. destruct (body _ 0%nat) as [c3 lb]. unfold tg_end. cbn [fst tg_emit tg_passes]. congruence. }
      destruct Ht as [<-|[<-|[<-|[]]]].
      * unfold kept_target. cbn [fst snd first_draw fp_render fp_pass marker_pass rp_index e_enabled all_on]. rewrite Len. apply Hp. left. reflexivity.
      * unfold kept_target. cbn [fst snd second_draw fp_render fp_pass marker_pass rp_index e_enabled all_on]. rewrite Len. apply Hp. right. left. reflexivity.
      * apply Hp. right. right. left. reflexivity.
Qed.
(* The number of render passes made so far by each holder after a number of frames. *)
Fixpoint drawn_after (n : nat) (g : rgraph) (ts : list target) : rgraph * list cmd * list target :=
  match n with O => (g, [], ts) | S n => let '(g, _, ts) := drawn_after n g ts in record_frame all_on g [] (combine drawn_passes ts) end.
Definition made_count (t : target) : nat := length (filter (fun ev => match ev with TRenderPass _ _ => true | _ => false end) (tg_log t)).
Definition expected (l : list cmd) : list (list N) := flat_map (fun c => match c with CBeginRenderPass infos => [map (fun x => snd (fst (fst x))) infos] | _ => [] end) l.
Example C100_applies :
  (forall n, rframes_legal empty_graph drawn_targets (drawn_frames n empty_graph drawn_targets (fun _ _ _ => 0))) /\
  map made_count (snd (drawn_after 1 empty_graph drawn_targets)) = [1; 1; 0]%nat /\ map made_count (snd (drawn_after 3 empty_graph drawn_targets)) = [1; 1; 0]%nat /\
  expected (snd (fst (drawn_after 3 empty_graph drawn_targets))) = [[L_UNDEFINED]; [L_COLOR_ATTACHMENT]].
Proof.
  split; [|vm_compute; auto]. intro n.
  apply (C100_render_passes_kept_partial ex_regions drawn_shape drawn_sizes empty_graph (fun _ _ _ => 0)); [exact ex_regions_ok|intros v _; left; reflexivity|reflexivity|].
  apply drawn_may; [reflexivity|reflexivity|]. intros t [<-|[<-|[<-|[]]]]; reflexivity.
Qed.
