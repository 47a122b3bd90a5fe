(** Mirrored and turned sprites (C110) *)
From Verif.Model Require Import Loader.
From Verif.Spec Require Import Bytes ImageSpec BlendSpec RenderSpec Refusals Made Convert.
From Verif.Proofs Require Import ImageFacts UnpackProps MadeProps FileFinal.

Lemma turn_onto t sz x' y' : 0 <= x' < fst (turn_size t sz) -> 0 <= y' < snd (turn_size t sz) ->
  exists x y, 0 <= x < fst sz /\ 0 <= y < snd sz /\ turn_at t sz x y = (x', y').
Proof.
  destruct sz as [w h]. destruct t; cbn; intros Hx Hy.
  - exists (w - 1 - x'), y'. split; [lia|]. split; [lia|]. f_equal. lia.
  - exists x', (h - 1 - y'). split; [lia|]. split; [lia|]. f_equal. lia.
  - exists y', x'. auto.
Qed.
Lemma turn_into t sz x y : 0 <= x < fst sz -> 0 <= y < snd sz ->
  0 <= fst (turn_at t sz x y) < fst (turn_size t sz) /\ 0 <= snd (turn_at t sz x y) < snd (turn_size t sz).
Proof. destruct sz as [w h]. destruct t; cbn; lia. Qed.

Lemma turn_covers t cv cel cel' x y : turned_cel t cv cel cel' ->
  covers cel' (fst (turn_at t cv x y)) (snd (turn_at t cv x y)) = covers cel x y.
Proof.
  intros (_ & _ & Es & Eo). unfold covers. rewrite Es, Eo. destruct cv as [W H], (fc_origin cel) as [ox oy], (fc_size cel) as [w h].
  destruct t; cbn; lia.
Qed.
(** The position inside the cel is turned, too. *)
Lemma turn_inside t cv cel cel' x y : turned_cel t cv cel cel' ->
  turn_at t (fc_size cel) (x - fst (fc_origin cel)) (y - snd (fc_origin cel)) =
  (fst (turn_at t cv x y) - fst (fc_origin cel'), snd (turn_at t cv x y) - snd (fc_origin cel')).
Proof.
  intros (_ & _ & Es & Eo). rewrite Eo. destruct cv as [W H], (fc_origin cel) as [ox oy], (fc_size cel) as [w h].
  destruct t; cbn; f_equal; lia.
Qed.

Section Turn.
Context (c : cfg) (inflate : inflater) (t : turn) (s s' : ase_file).
Hypothesis Hc : cfg_ok c.
Hypothesis Hinf : inflate_ok inflate.
Hypothesis HT : turned t s s'.
Hypothesis Hsz : cels_fit_images s.

Let cv := canvas s.

Lemma turn_drawn sel cel cel' : turned_cel t cv cel cel' -> drawn s' sel cel' = drawn s sel cel.
Proof. intros (El & _). destruct HT as (_ & _ & _ & Ely & _). unfold drawn. now rewrite El, Ely. Qed.

(** Plain true colour images are seen as they are. *)
Lemma plain_view (u : ase_file) cel im : h_color_depth (f_header (af_file u)) = Rgba ->
  nth_error (af_images u) (Z.to_nat (fc_image_index cel)) = Some im -> plain_rgba im -> fc_size cel = image_size im ->
  forall view, cel_view inflate u cel view <-> view = im_data im.
Proof.
  intros Hd Hj [Hz Hl] Hs view. unfold cel_view, decoded, stored. rewrite Hd.
  assert (Er : room cel = rgba_size im) by (unfold room, rgba_size; now rewrite Hs).
  split.
  - intros (im' & own & Hj' & _ & [Hown _] & ->). assert (im' = im) as -> by congruence. rewrite Hz in Hown. subst own.
    rewrite Er, Z.sub_diag. apply app_nil_r.
  - intros ->. exists im, (im_data im). split; [exact Hj|]. split; [lia|]. split; [split; [now rewrite Hz|exact Hl]|].
    rewrite Er, Z.sub_diag. now rewrite app_nil_r.
Qed.

(** What the two cels show. *)
Lemma turn_view f cel cel' : In f (af_frames s) -> In cel (sf_cels f) -> turned_cel t cv cel cel' ->
  (nth_error (af_images s) (Z.to_nat (fc_image_index cel)) = None /\
   nth_error (af_images s') (Z.to_nat (fc_image_index cel')) = None) \/
  exists im im', nth_error (af_images s) (Z.to_nat (fc_image_index cel)) = Some im /\
    nth_error (af_images s') (Z.to_nat (fc_image_index cel')) = Some im' /\ turned_image t im im' /\
    fc_size cel = image_size im /\ fc_size cel' = image_size im'.
Proof.
  intros Hf Hin (_ & Ei & Es & _). destruct HT as (_ & _ & _ & _ & HI & _). rewrite Ei.
  pose proof (Forall2_nth _ _ _ HI (Z.to_nat (fc_image_index cel))) as H.
  destruct (nth_error (af_images s) _) as [im|] eqn:E, (nth_error (af_images s') _) as [im'|]; try contradiction; [right|now left].
  exists im, im'. do 3 (split; [auto|]). pose proof (Hsz f cel im Hf Hin E) as H1. split; [exact H1|].
  destruct H as (_ & _ & H2 & _). congruence.
Qed.

Lemma stacked_turn sel f x y cels cels' back p : In f (af_frames s) -> (forall cel, In cel cels -> In cel (sf_cels f)) ->
  Forall2 (turned_cel t cv) cels cels' ->
  stacked c inflate s sel x y cels back p ->
  stacked c inflate s' sel (fst (turn_at t cv x y)) (snd (turn_at t cv x y)) cels' back p.
Proof.
  intros Hf Hin HF H. revert cels' HF. pose proof HT as (Hd & Hd' & _).
  induction H as [back|cel cels back p Hskip H IH|cel cels back l view front g mid p Hdr Hcov Hv Hpx Hg Hm H IH];
    intros cels' HF; inversion HF as [|? cel' ? cels'' HR HF']; subst.
  - constructor.
  - apply stacked_skip; [|apply IH; [intros; apply Hin; now right|exact HF']].
    rewrite (turn_drawn sel _ _ HR), (turn_covers t cv cel cel' x y HR). exact Hskip.
  - destruct (turn_view f cel cel' Hf (Hin _ (or_introl eq_refl)) HR) as [[N _]|(im & im' & E1 & E2 & HI & S1 & S2)].
    { destruct Hv as (im & _ & E & _). congruence. }
    pose proof HI as (P1 & P2 & Hsize & Hpix).
    apply (plain_view s cel im Hd E1 P1 S1) in Hv. subst view.
    eapply (stacked_draw _ _ _ _ _ _ cel' cels'' back l (im_data im') front g mid); try eassumption.
    + now rewrite (turn_drawn sel _ _ HR).
    + now rewrite (turn_covers t cv cel cel' x y HR).
    + now apply (plain_view s' cel' im' Hd' E2 P2 S2).
    + rewrite <- Hpx. pose proof (turn_inside t cv cel cel' x y HR) as HP.
      assert (HR1 : 0 <= x - fst (fc_origin cel) < fst (image_size im) /\ 0 <= y - snd (fc_origin cel) < snd (image_size im)).
      { rewrite <- S1. unfold covers in Hcov. destruct (fc_origin cel), (fc_size cel). cbn. lia. }
      specialize (Hpix _ _ (proj1 HR1) (proj2 HR1)). rewrite <- S1 in Hpix. rewrite HP in Hpix.
      rewrite S2, Hsize, <- S1. exact Hpix.
    + apply IH; [intros; apply Hin; now right|exact HF'].
Qed.
End Turn.

Lemma Forall2_nth_some {A B} (R : A -> B -> Prop) l l' n x : Forall2 R l l' -> nth_error l n = Some x ->
  exists y, nth_error l' n = Some y /\ R x y.
Proof.
  intros H E. pose proof (Forall2_nth R l l' H n) as G. rewrite E in G.
  destruct (nth_error l' n) as [y|]; [eauto|contradiction].
Qed.

Theorem turned_frames c inflate t s s' sel k target target' r : cfg_ok c -> inflate_ok inflate ->
  typed c s -> typed c s' -> made_fits c s -> made_fits c s' -> cels_fit_images s -> turned t s s' ->
  is_bytes target -> is_bytes target' -> canvas_size s' <= zlen target' ->
  turned_pixels t (canvas s) target target' ->
  render_frame c inflate s (Z.of_nat k) target sel = Ok r ->
  exists r', render_frame c inflate s' (Z.of_nat k) target' sel = Ok r' /\ turned_pixels t (canvas s) r r'.
Proof.
  intros Hc Hinf Hty Hty' Hfit Hfit' Hcf HT Hb Hb' Hl Htp Hok.
  pose proof HT as (Hd & Hd' & Hcv & Hly & HI & HFr).
  destruct (nth_error (api_frames s) k) as [sf|] eqn:Hk.
  2: { destruct (made_other c s Hc Hty Hfit inflate Hinf sel k target Hb) as [HE HN].
       destruct (Z.ltb_spec (zlen target) (canvas_size s)).
       - rewrite (proj2 (HE TargetBufferTooSmall target)) in Hok by auto. discriminate.
       - rewrite HN in Hok by (assumption || lia). discriminate. }
  pose proof (nth_error_In _ _ Hk) as Hin. unfold api_frames in Hk, Hin.
  destruct (Forall2_nth_some _ _ _ _ _ HFr Hk) as (sf' & Hk' & HC).
  pose proof (made_exactly c s Hc Hty Hfit inflate Hinf sel k sf target r Hk Hb) as HX. apply HX in Hok. clear HX.
  destruct Hok as (Hsz & Hrl & _ & Hcels & Hpx).
  (* positions of the turned canvas *)
  assert (Hpos : forall x' y', 0 <= x' < canvas_width s' -> 0 <= y' < canvas_height s' ->
    exists x y, 0 <= x < canvas_width s /\ 0 <= y < canvas_height s /\ turn_at t (canvas s) x y = (x', y')).
  { intros x' y' Hx Hy. unfold canvas in Hcv. apply (turn_onto t (canvas s)); unfold canvas; rewrite <- Hcv; assumption. }
  assert (Hw : fst (turn_size t (canvas s)) = canvas_width s') by (rewrite <- Hcv; reflexivity).
  assert (Hst : forall x' y' back', 0 <= x' < canvas_width s' -> 0 <= y' < canvas_height s' ->
    pixel (canvas_width s') target' x' y' = Some back' ->
    exists x y p, 0 <= x < canvas_width s /\ 0 <= y < canvas_height s /\ turn_at t (canvas s) x y = (x', y') /\
      pixel (canvas_width s) r x y = Some p /\ stacked c inflate s' sel x' y' (sf_cels sf') back' p).
  { intros x' y' back' Hx Hy E'. destruct (Hpos x' y' Hx Hy) as (x & y & Hx0 & Hy0 & Et).
    destruct (Hpx x y Hx0 Hy0) as (back & p & E & Ep & Hs). exists x, y, p. do 4 (split; [assumption|]).
    specialize (Htp x y Hx0 Hy0). rewrite Et, Hw in Htp. cbn [canvas fst] in Htp.
    assert (back' = back) as -> by congruence.
    pose proof (stacked_turn c inflate t s s' HT Hcf sel sf x y _ _ back p Hin (fun _ H => H) HC Hs) as G.
    rewrite Et in G. exact G. }
  destruct (render_frame c inflate s' (Z.of_nat k) target' sel) as [r'|[e b]|q] eqn:R.
  - exists r'. split; [reflexivity|].
    apply (made_exactly c s' Hc Hty' Hfit' inflate Hinf sel k sf' target' r' Hk' Hb') in R.
    destruct R as (_ & _ & _ & _ & Hpx'). intros x y Hx Hy.
    destruct (turn_into t (canvas s) x y Hx Hy) as [Hx' Hy']. rewrite <- Hcv in Hx', Hy'.
    destruct (turn_at t (canvas s) x y) as [x' y'] eqn:Et. cbn [fst snd canvas] in *. rewrite Hw.
    destruct (Hpx' x' y' Hx' Hy') as (back' & p' & E' & Ep' & Hs').
    destruct (Hpx x y Hx Hy) as (back & p & E & Ep & Hs).
    specialize (Htp x y Hx Hy). rewrite Et, Hw in Htp. cbn [canvas fst] in Htp.
    assert (back' = back) as -> by congruence.
    pose proof (stacked_turn c inflate t s s' HT Hcf sel sf x y _ _ back p Hin (fun _ H => H) HC Hs) as G.
    rewrite Et in G. cbn [fst snd] in G.
    rewrite (stacked_unique c s' inflate sel x' y' _ _ _ _ Hs' G) in Ep'. congruence.
  - apply (made_other c s' Hc Hty' Hfit' inflate Hinf sel k target' Hb') in R. lia.
  - exfalso. apply (made_panics c s' Hc Hty' Hfit' inflate Hinf sel k sf' target' Hk' Hb') in R.
    destruct R as (_ & before & cel' & after & l & Ecels & Hdr & _ & Hstuck).
    assert (HC2 := HC). rewrite Ecels in HC2. apply Forall2_app_inv_r in HC2.
    destruct HC2 as (b0 & rest & _ & HC3 & Es). inversion HC3 as [|cel ? a0 ? HR _]; subst.
    assert (Hin2 : In cel (sf_cels sf)) by (rewrite Es; apply in_or_app; right; now left).
    rewrite (turn_drawn t s s' HT sel cel cel' HR) in Hdr.
    destruct (Hcels cel l Hin2 Hdr) as [[view Hv] Hm].
    destruct (turn_view t s s' HT Hcf sf cel cel' Hin Hin2 HR) as [[N _]|(im & im' & E1 & E2 & HIm & S1 & S2)].
    { destruct Hv as (im & _ & E & _). congruence. }
    pose proof HIm as (P1 & P2 & _ & _).
    pose proof (proj2 (plain_view inflate s' cel' im' Hd' E2 P2 S2 (im_data im')) eq_refl) as Hv'.
    destruct Hstuck as [N|(_ & im2 & E3 & _ & _ & N)|_ _ N|view' _ N|view' x' y' back' _ _ Hx' Hy' E' N].
    + unfold no_image in N. congruence.
    + assert (im2 = im') as -> by congruence. now destruct P2.
    + now apply N in Hv'.
    + contradiction.
    + destruct (Hst x' y' back' Hx' Hy' E') as (x & y & p & _ & _ & _ & _ & Hs). rewrite Ecels in Hs.
      change (before ++ cel' :: after) with (before ++ [cel'] ++ after) in Hs. rewrite app_assoc in Hs.
      apply stacked_app in Hs. destruct Hs as (m & Hs & _). now apply N in Hs.
Qed.

Lemma loaded_cels_fit c i s : cfg_ok c -> is_bytes i -> addressable c i -> load c i = Ok s -> cels_fit_images s.
Proof.
  intros Hc Hb Ha Hl f cel im Hf Hin E. apply In_nth_error in Hf. destruct Hf as [k Hk].
  destruct (cels_shown c i s k f Hc Hb Ha Hl Hk) as (_ & _ & _ & H). destruct (H cel Hin) as (_ & im' & E' & ->).
  assert (im' = im) as -> by congruence. reflexivity.
Qed.
