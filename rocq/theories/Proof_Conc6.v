(* One image asked by several threads; failed calls. *)
From Verif Require Import Spec_Conc Spec_Res Proof_Conc Proof_Conc2 Proof_Conc3 Proof_Conc4 Proof_Conc5 Proof_Layout Proof_Res Proof_Res4.
From Coq Require Import PeanoNat.
Local Open Scope N_scope.

Definition entry (img : N) (s : N -> hcell) : option (N * N) := mfind img (images_of (s K_IMAGES)).
(* The images made for img. *)
Definition is_made (img : N) (e : event) : list N := match e with Created (OImage i) h => if N.eqb i img then [h] else [] | _ => [] end.
Definition makes (img : N) (log : list event) : list N := flat_map (is_made img) log.
Lemma makes_app img l1 l2 : makes img (l1 ++ l2) = makes img l1 ++ makes img l2. Proof. apply flat_map_app. Qed.
Definition asks (img : N) (c : hcall) : bool := match c with HCreateImage _ i => N.eqb i img | _ => false end.

Section Image.
Context (supply : nat -> nat -> option N) (Sure : forall t n, supply t n <> None).

Lemma createImage_effect t device i k throws s log used : exists s1 log1 used1 vk cr,
  alone supply t (code_createImage device i k throws) s log used = alone supply t (k vk cr) s1 log1 used1 /\
  (forall c, c <> K_IMAGES -> s1 c = s c) /\ (forall img, i <> img -> entry img s1 = entry img s /\ makes img log1 = makes img log) /\
  match entry i s with
  | Some e => vk = fst e /\ cr = false /\ entry i s1 = Some e /\ makes i log1 = makes i log
  | None => (exists mem, entry i s1 = Some (vk, mem)) /\ makes i log1 = makes i log ++ [vk]
  end.
Proof.
  unfold code_createImage, entry. cbn [alone]. destruct (mfind i (images_of (s K_IMAGES))) as [e|] eqn:E; cbn [alone].
  - eexists _, _, _, _, _. split; [reflexivity|]. split; [intros c Hc; apply put_other; congruence|]. rewrite put_same. split; [intros img Hi; split; reflexivity|]. auto.
  - destruct (supply t used) as [vk|] eqn:Sv; [|exfalso; exact (Sure t used Sv)]. cbn [made alone]. unfold write. cbn [alone]. rewrite put_same. cbn [images_of].
    destruct device; cbn [alone].
    + destruct (supply t (Datatypes.S used)) as [mem|] eqn:Sm; [|exfalso; exact (Sure t _ Sm)]. cbn [made alone]. rewrite put_same. cbn [images_of].
      eexists _, _, _, _, _. split; [reflexivity|]. split; [intros c Hc; rewrite !put_other by congruence; reflexivity|]. rewrite put_same. cbn [images_of]. split.
      * intros img Hi. split; [rewrite !mfind_mput; destruct (N.eqb_spec img i); [congruence|reflexivity]|]. rewrite !makes_app. cbn. destruct (N.eqb_spec i img); [congruence|]. rewrite !app_nil_r. reflexivity.
      * split; [exists mem; apply mfind_mput_same|]. rewrite !makes_app. cbn. rewrite N.eqb_refl, app_nil_r. reflexivity.
    + eexists _, _, _, _, _. split; [reflexivity|]. split; [intros c Hc; rewrite !put_other by congruence; reflexivity|]. rewrite put_same. cbn [images_of]. split.
      * intros img Hi. split; [rewrite !mfind_mput; destruct (N.eqb_spec img i); [congruence|reflexivity]|]. rewrite !makes_app. cbn. destruct (N.eqb_spec i img); [congruence|]. rewrite !app_nil_r. reflexivity.
      * split; [exists 0; apply mfind_mput_same|]. rewrite !makes_app. cbn. rewrite N.eqb_refl. reflexivity.
Qed.

(* What a call that does not destroy the image does to it. *)
Definition effect (img : N) (c : hcall) (r : hresult) (s s' : N -> hcell) (log log' : list event) : Prop :=
  match entry img s with
  | Some e => entry img s' = Some e /\ makes img log' = makes img log /\ (asks img c = true -> r = Gave (fst e) false)
  | None => (entry img s' = None /\ makes img log' = makes img log /\ asks img c = false) \/
            (exists vk mem, entry img s' = Some (vk, mem) /\ makes img log' = makes img log ++ [vk] /\ (asks img c = true -> exists cr, r = Gave vk cr))
  end.
Lemma effect_none img c r s s' log log' : asks img c = false -> entry img s' = entry img s -> makes img log' = makes img log -> effect img c r s s' log log'.
Proof. intros A E L. unfold effect. rewrite E. destruct (entry img s); [split; [reflexivity|]; split; [exact L|congruence]|left; auto]. Qed.
Lemma alone_other_makes img t : forall k s log used s' log' used' r,
  (fix safe (k : hcode) : Prop := match k with Done _ => True | Acquire _ k | Release _ k | Free _ k => safe k
     | Access c w f k => (w = true -> c <> K_IMAGES) /\ forall v, safe (k v) | Make o k => (forall h, is_made img (Created o h) = []) /\ forall x, safe (k x) end) k ->
  alone supply t k s log used = (s', log', used', r) -> entry img s' = entry img s /\ makes img log' = makes img log.
Proof.
  induction k as [r0|m k IH|m k IH|X c w f k IH|o k IH|h k IH]; intros s log used s' log' used' r W E; cbn [alone] in E; try (eapply IH; [exact W|exact E]).
  - injection E as <- <- <- <-. auto.
  - destruct W as [Wc W]. destruct (f (s c)) as [x v]. destruct (IH v _ _ _ _ _ _ _ (W v) E) as (A & B). split; [|exact B]. rewrite A. unfold entry.
    destruct w; [|reflexivity]. rewrite put_other; [reflexivity|]. apply Wc. reflexivity.
  - destruct W as [Wo W]. destruct (IH _ _ _ _ _ _ _ _ (W _) E) as (A & B). split; [exact A|]. rewrite B, makes_app. unfold made. destruct (supply t used); [|apply app_nil_r].
    cbn [makes flat_map]. rewrite (Wo n), app_nil_r. reflexivity.
  - destruct (IH _ _ _ _ _ _ _ W E) as (A & B). split; [exact A|]. rewrite B, makes_app. cbn. apply app_nil_r.
Qed.
Ltac other := let E := fresh "E" in intro E; apply effect_none; [reflexivity| |]; eapply alone_other_makes; try exact E; cbn [handler_code];
  unfold code_createImageId, code_createViewId, code_createSampler, code_createQuad, code_destroyView, code_destroySampler, code_destroyBuffer, free, read, write;
  repeat match goal with
    | |- _ /\ _ => split
    | |- forall _, _ => intro
    | |- context [match ?x with _ => _ end] => destruct x
    | |- _ <> _ => vm_compute; discriminate
    | |- True => exact I
    | |- is_made _ _ = _ => reflexivity
    end.
Lemma call_effect img t c s log used s' log' used' r : c <> HDestroyImage img ->
  alone supply t (handler_code c) s log used = (s', log', used', r) -> effect img c r s s' log log'.
Proof.
  intro Nd. destruct c as [im|v|device i|device v i|d|device q|i|v|sm|b].
  - other.
  - other.
  - cbn [handler_code]. intro E. destruct (createImage_effect t device i (fun vk created => Done (Gave vk created)) (Done Threw) s log used) as (s1 & log1 & used1 & vk & cr & Ea & Oth & Ot & Eff).
    rewrite Ea in E. cbn [alone] in E. injection E as <- <- <- <-. destruct (N.eqb_spec i img) as [->|Ne].
    + unfold effect. destruct (entry img s) as [e|] eqn:Es.
      * destruct Eff as (-> & -> & A & B). split; [exact A|]. split; [exact B|reflexivity].
      * destruct Eff as [[mem A] B]. right. exists vk, mem. split; [exact A|]. split; [exact B|]. intros _. exists cr. reflexivity.
    + destruct (Ot img Ne) as [A B]. apply effect_none; [|exact A|exact B]. cbn. destruct (N.eqb_spec i img); [contradiction|reflexivity].
  - cbn [handler_code]. unfold code_createView. cbn [alone]. destruct (mfind v (views_of (s K_VIEWS))) as [x|]; cbn [alone].
    + intro E. injection E as <- <- <- <-. apply effect_none; [reflexivity| |reflexivity]. unfold entry. rewrite put_other by discriminate. reflexivity.
    + intro E. match type of E with alone _ _ (code_createImage _ _ ?k ?th) ?s0 _ _ = _ => destruct (createImage_effect t device i k th s0 log used) as (s1 & log1 & used1 & vk & cr & Ea & Oth & Ot & Eff) end.
      rewrite Ea in E. clear Ea. cbn [alone] in E. destruct (supply t used1) as [vv|] eqn:Sv; [|exfalso; exact (Sure t used1 Sv)]. cbn [alone made] in E. unfold write in E. cbn [alone] in E.
      injection E as <- <- <- <-.
      assert (Ee : forall x s0, entry x (put_cell s0 K_VIEWS (HViews (mput v vv (views_of (s1 K_VIEWS))))) = entry x s0) by (intros; unfold entry; rewrite put_other by discriminate; reflexivity).
      assert (Em : forall x, makes x (log1 ++ [Created (OView v) vv]) = makes x log1) by (intro; rewrite makes_app; cbn; apply app_nil_r).
      set (s0 := put_cell s K_VIEWS (HViews (mput v 0 (views_of (s K_VIEWS))))) in *.
      assert (E0 : forall x, entry x s0 = entry x s) by (intros; unfold entry, s0; rewrite put_other by discriminate; reflexivity).
      destruct (N.eqb_spec i img) as [->|Ne].
      * unfold effect. rewrite Ee, Em. rewrite E0 in Eff. destruct (entry img s) as [e|] eqn:Es.
        -- destruct Eff as (_ & _ & A & B). split; [exact A|]. split; [exact B|discriminate].
        -- destruct Eff as [[mem A] B]. right. exists vk, mem. split; [exact A|]. split; [exact B|discriminate].
      * destruct (Ot img Ne) as [A B]. apply effect_none; [reflexivity|rewrite Ee, A; apply E0|rewrite Em; exact B].
  - other.
  - other.
  - assert (Ne : i <> img) by congruence. cbn [handler_code]. unfold code_destroyImage, read. cbn [alone]. destruct (mfind i (images_of (s K_IMAGES))) as [[vk mem]|]; cbn [alone]; intro E.
    + assert (Q : s' = put_cell s K_IMAGES (HImages (merase i (images_of (s K_IMAGES)))) /\ makes img log' = makes img log).
      { unfold free, write in E. destruct (N.eqb mem 0), (N.eqb vk 0); cbn [alone] in E; injection E as <- <- <- <-; rewrite ?makes_app; cbn; rewrite ?app_nil_r; auto. }
      destruct Q as [-> Q]. apply effect_none; [reflexivity| |exact Q]. unfold entry. rewrite put_same. cbn [images_of]. rewrite mfind_merase. destruct (N.eqb_spec img i); [congruence|reflexivity].
    + injection E as <- <- <- <-. apply effect_none; reflexivity.
  - other.
  - other.
  - other.
Qed.

(* The history of an image that is not destroyed. *)
Definition tell (img : N) (x : nat * (hcall * hresult)) : bool := match snd (snd x) with Gave _ true => asks img (fst (snd x)) | _ => false end.
Definition shared (img : N) (hist : hist_t) (s : N -> hcell) (lg : nat -> list event * nat) : Prop :=
  match entry img s with
  | None => (forall t, makes img (fst (lg t)) = []) /\ (forall x, In x hist -> asks img (fst (snd x)) = false)
  | Some (vk, _) => (exists t0, makes img (fst (lg t0)) = [vk] /\ forall t, t <> t0 -> makes img (fst (lg t)) = []) /\
      (forall x, In x hist -> asks img (fst (snd x)) = true -> exists cr, snd (snd x) = Gave vk cr) /\ (length (filter (tell img) hist) <= 1)%nat
  end.
Lemma tell_none img l : (forall x, In x l -> asks img (fst (snd x)) = false) -> filter (tell img) l = [].
Proof.
  induction l as [|x l IH]; intro H; [reflexivity|]. cbn [filter]. unfold tell at 1. rewrite (H x (or_introl eq_refl)). replace (match snd (snd x) with Gave _ true => false | _ => false end) with false by (destruct (snd (snd x)) as [| |? []| |]; reflexivity).
  apply IH. intros y Hy. apply H. right. exact Hy.
Qed.
Lemma serial_shared img hist s lg : serial handler_code supply empty_handler hist s lg -> (forall x, In x hist -> fst (snd x) <> HDestroyImage img) -> shared img hist s lg.
Proof.
  induction 1 as [|hist s lg t c s' log' used' r Se IH E]; intro Nd; [cbn; split; [reflexivity|intros x []]|].
  specialize (IH (fun x Hx => Nd x (in_or_app _ _ _ (or_introl Hx)))).
  assert (Nc : c <> HDestroyImage img) by (apply (Nd (t, (c, r))); apply in_app_iff; right; left; reflexivity).
  pose proof (call_effect img t c s _ _ _ _ _ _ Nc E) as F. unfold effect in F. unfold shared in *. destruct (entry img s) as [[vk mem]|] eqn:Es.
  - destruct F as (F1 & F2 & F3). rewrite F1. destruct IH as ((t0 & I1 & I2) & I3 & I4). split; [|split].
    + exists t0. unfold put_log. split; [destruct (Nat.eqb_spec t t0) as [->|]; cbn [fst]; [rewrite F2|]; exact I1|].
      intros u Hu. destruct (Nat.eqb_spec t u) as [->|]; cbn [fst]; [rewrite F2|]; apply I2, Hu.
    + intros x Hx Ax. apply in_app_iff in Hx. destruct Hx as [Hx | [<- | []]]; [apply (I3 x Hx Ax)|]. cbn [fst snd] in *. exists false. apply F3, Ax.
    + rewrite filter_app, app_length. cbn [filter]. unfold tell at 2. cbn [fst snd]. destruct (asks img c) eqn:A.
      * rewrite (F3 eq_refl). cbn [length]. lia.
      * replace (match r with Gave _ true => false | _ => false end) with false by (destruct r as [| |? []| |]; reflexivity). cbn [length]. lia.
  - destruct IH as [I1 I2]. destruct F as [(F1 & F2 & F3) | (vk & mem & F1 & F2 & F3)]; rewrite F1.
    + split.
      * intro u. unfold put_log. destruct (Nat.eqb_spec t u) as [->|]; cbn [fst]; [rewrite F2|]; apply I1.
      * intros x Hx. apply in_app_iff in Hx. destruct Hx as [Hx | [<- | []]]; [apply I2, Hx|exact F3].
    + split; [|split].
      * exists t. unfold put_log. rewrite Nat.eqb_refl. cbn [fst]. split; [rewrite F2, I1; reflexivity|]. intros u Hu. destruct (Nat.eqb_spec t u); [congruence|apply I1].
      * intros x Hx Ax. apply in_app_iff in Hx. destruct Hx as [Hx | [<- | []]]; [rewrite (I2 x Hx) in Ax; discriminate|apply F3, Ax].
      * rewrite filter_app, app_length, (tell_none img hist I2). cbn [filter length]. destruct (tell img (t, (c, r))); cbn; lia.
Qed.
End Image.

(* ------------------------------------------------------------------ calls that throw *)
Definition wanted_image (c : hcall) : option N := match c with HCreateImage _ i | HCreateView _ _ i => Some i | _ => None end.
Definition wanted_view (c : hcall) : option N := match c with HCreateView _ v _ => Some v | _ => None end.
Section Failures.
Context (supply : nat -> nat -> option N).
Definition only_made (log log' : list event) : Prop := exists new, log' = log ++ new /\ forall e, In e new -> exists o h, e = Created o h.
Lemma om_refl l : only_made l l. Proof. exists []. rewrite app_nil_r. split; [reflexivity|intros e []]. Qed.
Lemma om_made l o x : only_made l (l ++ made o x).
Proof. exists (made o x). split; [reflexivity|]. intros e He. destruct x; [|destruct He]. destruct He as [<- | []]. eauto. Qed.
Lemma om_trans l1 l2 l3 : only_made l1 l2 -> only_made l2 l3 -> only_made l1 l3.
Proof. intros (a & -> & A) (b & -> & B). exists (a ++ b). rewrite app_assoc. split; [reflexivity|]. intros e He. apply in_app_iff in He. destruct He as [He|He]; auto. Qed.

(* createImage, in every case. *)
Lemma createImage_cases t device i k throws s log used : exists s1 log1 used1, 
  (alone supply t (code_createImage device i k throws) s log used = alone supply t throws s1 log1 used1 \/
   exists vk cr, alone supply t (code_createImage device i k throws) s log used = alone supply t (k vk cr) s1 log1 used1) /\
  (forall c, c <> K_IMAGES -> s1 c = s c) /\ (forall img, i <> img -> entry img s1 = entry img s) /\
  exists new, log1 = log ++ new /\ (forall e, In e new -> (exists h, e = Created (OImage i) h /\ exists mem, entry i s1 = Some (h, mem)) \/ (exists h, e = Created (OImageMemory i) h /\ exists vk, entry i s1 = Some (vk, h))).
Proof.
  unfold code_createImage. cbn [alone]. destruct (mfind i (images_of (s K_IMAGES))) as [e|] eqn:E; cbn [alone].
  - eexists _, _, _. split; [right; eexists _, _; reflexivity|]. split; [intros c Hc; apply put_other; congruence|]. split; [intros img Hi; unfold entry; rewrite put_same; reflexivity|].
    exists []. rewrite app_nil_r. split; [reflexivity|intros x []].
  - destruct (supply t used) as [vk|] eqn:Sv; cbn [made alone].
    2:{ eexists _, _, _. split; [left; reflexivity|]. split; [intros c Hc; apply put_other; congruence|]. split.
        - intros img Hi. unfold entry. rewrite put_same. cbn [images_of]. rewrite mfind_mput. destruct (N.eqb_spec img i); [congruence|reflexivity].
        - exists []. split; [reflexivity|intros x []]. }
    unfold write. cbn [alone]. rewrite put_same. cbn [images_of]. destruct device; cbn [alone].
    + destruct (supply t (Datatypes.S used)) as [mem|] eqn:Sm; cbn [made alone].
      * rewrite put_same. cbn [images_of]. eexists _, _, _. split; [right; eexists _, _; reflexivity|]. split; [intros c Hc; rewrite !put_other by congruence; reflexivity|]. split.
        -- intros img Hi. unfold entry. rewrite put_same. cbn [images_of]. rewrite !mfind_mput. destruct (N.eqb_spec img i); [congruence|reflexivity].
        -- rewrite <- app_assoc. eexists. split; [reflexivity|]. unfold entry. rewrite put_same. cbn [images_of]. rewrite mfind_mput_same. intros x [<- | [<- | []]]; [left|right]; eexists; (split; [reflexivity|]); eexists; reflexivity.
      * eexists _, _, _. split; [left; reflexivity|]. split; [intros c Hc; rewrite !put_other by congruence; reflexivity|]. split.
        -- intros img Hi. unfold entry. rewrite put_same. cbn [images_of]. rewrite !mfind_mput. destruct (N.eqb_spec img i); [congruence|reflexivity].
        -- rewrite app_nil_r. eexists. split; [reflexivity|]. unfold entry. rewrite put_same. cbn [images_of]. rewrite mfind_mput_same. intros x [<- | []]; left; eexists; (split; [reflexivity|]); eexists; reflexivity.
    + eexists _, _, _. split; [right; eexists _, _; reflexivity|]. split; [intros c Hc; rewrite !put_other by congruence; reflexivity|]. split.
      * intros img Hi. unfold entry. rewrite put_same. cbn [images_of]. rewrite !mfind_mput. destruct (N.eqb_spec img i); [congruence|reflexivity].
      * eexists. split; [reflexivity|]. unfold entry. rewrite put_same. cbn [images_of]. rewrite mfind_mput_same. intros x [<- | []]; left; eexists; (split; [reflexivity|]); eexists; reflexivity.
Qed.
Definition recorded (s : N -> hcell) (e : event) : Prop :=
  (exists i h, e = Created (OImage i) h /\ exists mem, entry i s = Some (h, mem)) \/ (exists i h, e = Created (OImageMemory i) h /\ exists vk, entry i s = Some (vk, h)).
Lemma throw_effect t c s log used s' log' used' : alone supply t (handler_code c) s log used = (s', log', used', Threw) ->
  s' K_IMAGE_IDS = s K_IMAGE_IDS /\ s' K_VIEW_IDS = s K_VIEW_IDS /\ buffers_of (s' K_BUFFERS) = buffers_of (s K_BUFFERS) /\
  (forall img, wanted_image c <> Some img -> entry img s' = entry img s) /\
  (forall v, wanted_view c <> Some v -> mfind v (views_of (s' K_VIEWS)) = mfind v (views_of (s K_VIEWS))) /\
  (forall h, h <> 0 -> mfind h (samplers_of (s' K_SAMPLERS)) = mfind h (samplers_of (s K_SAMPLERS))) /\
  exists new, log' = log ++ new /\ forall e, In e new -> recorded s' e \/ exists q h, e = Created (OQuad q) h.
Proof.
  assert (Nil : forall (s : N -> hcell) (log : list event), exists new, log = log ++ new /\ forall e, In e new -> recorded s e \/ exists q h, e = Created (OQuad q) h) by (intros; exists []; rewrite app_nil_r; split; [reflexivity|intros e []]).
  destruct c as [im|v|device i|device v i|d|device q|i|v|sm|b]; cbn [handler_code wanted_image wanted_view]; intro E.
  - discriminate E.
  - unfold code_createViewId, read in E. cbn [alone] in E. destruct (find _ _) as [[k w]|]; discriminate E.
  - destruct (createImage_cases t device i (fun vk created => Done (Gave vk created)) (Done Threw) s log used) as (s1 & log1 & used1 & Ea & Oth & Ot & new & En & Re).
    destruct Ea as [Ea | (vk & cr & Ea)]; rewrite Ea in E; cbn [alone] in E; [|discriminate E]. injection E as <- <- <-. rewrite !Oth by discriminate. repeat (split; [reflexivity|]).
    split; [intros img Hi; apply Ot; congruence|]. split; [reflexivity|]. split; [reflexivity|]. exists new. split; [exact En|]. intros e He. left. destruct (Re e He) as [(h & A & B) | (h & A & B)]; [left|right]; exists i, h; auto.
  - unfold code_createView in E. cbn [alone] in E. destruct (mfind v (views_of (s K_VIEWS))) as [x|] eqn:Hv; cbn [alone] in E; [discriminate E|].
    match type of E with alone _ _ (code_createImage _ _ ?k ?th) ?s0 _ _ = _ => destruct (createImage_cases t device i k th s0 log used) as (s1 & log1 & used1 & Ea & Oth & Ot & new & En & Re) end.
    assert (Q : s' = s1 /\ log' = log1).
    { destruct Ea as [Ea | (vk & cr & Ea)]; rewrite Ea in E; clear Ea; cbn [alone] in E; [injection E as <- <- <-; auto|]. destruct (supply t used1) as [vv|]; cbn [alone made] in E; [discriminate E|].
      injection E as <- <- <-. rewrite app_nil_r. auto. }
    destruct Q as [-> ->]. clear E Ea. rewrite !Oth by discriminate. rewrite !put_other by discriminate. repeat (split; [reflexivity|]). split.
    { intros img Hi. rewrite Ot by congruence. unfold entry. rewrite put_other by discriminate. reflexivity. }
    split.
    { intros v' Hv'. rewrite put_same. cbn [views_of]. rewrite mfind_mput. destruct (N.eqb_spec v' v); [congruence|reflexivity]. }
    split; [reflexivity|]. exists new. split; [exact En|]. intros e He. left. destruct (Re e He) as [(h & A & B) | (h & A & B)]; [left|right]; exists i, h; auto.
  - unfold code_createSampler in E. cbn [alone] in E. destruct (supply t used) as [vk|]; unfold write in E; cbn [alone made] in E; [discriminate E|]. injection E as <- <- <-.
    unfold entry. rewrite !put_other by discriminate. repeat (split; [reflexivity|]). split; [|rewrite app_nil_r; apply Nil].
    intros h Hh. rewrite put_same. cbn [samplers_of]. rewrite mfind_minsert. destruct (N.eqb_spec h 0); [contradiction|]. destruct (mfind h _); reflexivity.
  - unfold code_createQuad in E. cbn [alone] in E. destruct (supply t used) as [vk|]; cbn [alone made] in E.
    + destruct device; cbn [alone] in E; [|discriminate E]. destruct (supply t (Datatypes.S used)) as [mem|]; unfold write in E; cbn [alone made] in E; [discriminate E|]. injection E as <- <- <-. rewrite app_nil_r.
      repeat (split; [reflexivity|]). exists [Created (OQuad q) vk]. split; [reflexivity|]. intros e [<- | []]. right. eauto.
    + injection E as <- <- <-. rewrite app_nil_r. repeat (split; [reflexivity|]). apply Nil.
  - unfold code_destroyImage, read in E. cbn [alone] in E. destruct (mfind i _) as [[vk mem]|]; [|discriminate E]. unfold free, write in E. destruct (N.eqb mem 0), (N.eqb vk 0); discriminate E.
  - unfold code_destroyView, read in E. cbn [alone] in E. destruct (mfind v _) as [vk|]; [|discriminate E]. unfold free, write in E. destruct (N.eqb vk 0); discriminate E.
  - unfold code_destroySampler, read in E. cbn [alone] in E. destruct (mfind sm _) as [vk|]; [|discriminate E]. unfold free, write in E. destruct (N.eqb sm 0); discriminate E.
  - unfold code_destroyBuffer, read in E. cbn [alone] in E. destruct (mfind b _) as [mem|]; [|discriminate E]. unfold free, write in E. destruct (N.eqb mem 0), (N.eqb b 0); discriminate E.
Qed.
End Failures.
