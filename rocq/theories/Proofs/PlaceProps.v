(** Frames of two sprites compared pixel by pixel, each in its own place. *)
From Verif.Model Require Import Loader.
From Verif.Spec Require Import Bytes ImageSpec BlendSpec RenderSpec Refusals Made Convert.
From Verif.Proofs Require Import ImageFacts RenderFacts RenderProps MadeProps.

Section Place.
Context (c : cfg) (inflate : inflater) (s s' : ase_file) (sel sel' : layer_selection).
Hypothesis Hc : cfg_ok c.
Hypothesis Hinf : inflate_ok inflate.
Hypothesis Hty : typed c s.
Hypothesis Hty' : typed c s'.
Hypothesis Hfit : made_fits c s.
Hypothesis Hfit' : made_fits c s'.
(** Where the pixels of the second canvas come from *)
Context (px_of py_of : Z -> Z).
Hypothesis Hx : forall x, 0 <= x < canvas_width s' -> 0 <= px_of x < canvas_width s.
Hypothesis Hy : forall y, 0 <= y < canvas_height s' -> 0 <= py_of y < canvas_height s.

Definition placed (cel cel' : frame_cel) : Prop :=
  drawn s' sel' cel' = drawn s sel cel /\
  (forall x y, 0 <= x < canvas_width s' -> 0 <= y < canvas_height s' -> covers cel' x y = covers cel (px_of x) (py_of y)) /\
  forall view, cel_view inflate s cel view -> exists view', cel_view inflate s' cel' view' /\
    forall x y, 0 <= x < canvas_width s' -> 0 <= y < canvas_height s' -> covers cel' x y = true ->
      pixel (fst (fc_size cel')) view' (x - fst (fc_origin cel')) (y - snd (fc_origin cel')) =
      pixel (fst (fc_size cel)) view (px_of x - fst (fc_origin cel)) (py_of y - snd (fc_origin cel)).

Lemma stacked_placed x y cels cels' back p : 0 <= x < canvas_width s' -> 0 <= y < canvas_height s' ->
  Forall2 placed cels cels' ->
  stacked c inflate s sel (px_of x) (py_of y) cels back p -> stacked c inflate s' sel' x y cels' back p.
Proof.
  intros Px Py HF H. revert cels' HF.
  induction H as [back|cel cels back p Hskip H IH|cel cels back l view front g mid p Hdr Hcov Hv Hpx Hg Hm H IH];
    intros cels' HF; inversion HF as [|? cel' ? cels'' HR HF']; subst; pose proof HR as (Ed & Ec & Ev) || idtac.
  - constructor.
  - apply stacked_skip; [|now apply IH]. rewrite Ed, (Ec x y Px Py). exact Hskip.
  - destruct (Ev view Hv) as (view' & Hv' & Ep). rewrite <- (Ec x y Px Py) in Hcov.
    apply (stacked_draw _ _ _ _ _ _ cel' cels'' back l view' front g mid); try assumption.
    + now rewrite Ed.
    + now rewrite (Ep x y Px Py Hcov).
    + now apply IH.
Qed.

Theorem placed_frames k sf sf' target target' r :
  nth_error (api_frames s) k = Some sf -> nth_error (api_frames s') k = Some sf' ->
  Forall2 placed (sf_cels sf) (sf_cels sf') ->
  is_bytes target -> is_bytes target' -> canvas_size s' <= zlen target' ->
  (forall x y, 0 <= x < canvas_width s' -> 0 <= y < canvas_height s' ->
     pixel (canvas_width s') target' x y = pixel (canvas_width s) target (px_of x) (py_of y)) ->
  render_frame c inflate s (Z.of_nat k) target sel = Ok r ->
  exists r', render_frame c inflate s' (Z.of_nat k) target' sel' = Ok r' /\
    forall x y, 0 <= x < canvas_width s' -> 0 <= y < canvas_height s' ->
      pixel (canvas_width s') r' x y = pixel (canvas_width s) r (px_of x) (py_of y).
Proof.
  intros Hk Hk' HF Hb Hb' Hl HE Hok.
  pose proof (made_exactly c s Hc Hty Hfit inflate Hinf sel k sf target r Hk Hb) as HX. apply HX in Hok. clear HX.
  destruct Hok as (Hsz & Hrl & _ & Hcels & Hpx).
  assert (Hst : forall x y back', 0 <= x < canvas_width s' -> 0 <= y < canvas_height s' ->
    pixel (canvas_width s') target' x y = Some back' ->
    exists p, pixel (canvas_width s) r (px_of x) (py_of y) = Some p /\ stacked c inflate s' sel' x y (sf_cels sf') back' p).
  { intros x y back' Px Py E'. destruct (Hpx _ _ (Hx x Px) (Hy y Py)) as (back & p & E1 & E2 & H).
    rewrite (HE x y Px Py), E1 in E'. injection E' as <-. exists p. split; [exact E2|]. now apply (stacked_placed x y (sf_cels sf)). }
  destruct (made_other c s' Hc Hty' Hfit' inflate Hinf sel' k target' Hb') as [HO _].
  destruct (render_frame c inflate s' (Z.of_nat k) target' sel') as [r'|[e t]|q] eqn:R.
  - exists r'. split; [reflexivity|].
    apply (made_exactly c s' Hc Hty' Hfit' inflate Hinf sel' k sf' target' r' Hk' Hb') in R.
    destruct R as (_ & _ & _ & _ & Hpx'). intros x y Px Py.
    destruct (Hpx' x y Px Py) as (back' & q' & E1 & E2 & H'). destruct (Hst x y back' Px Py E1) as (p & E3 & H).
    rewrite E2, E3. now rewrite (stacked_unique c s' inflate sel' x y _ _ _ _ H' H).
  - destruct (proj1 (HO e t) eq_refl) as [H _]. lia.
  - exfalso. apply (made_panics c s' Hc Hty' Hfit' inflate Hinf sel' k sf' target' Hk' Hb') in R.
    destruct R as (_ & before & cel' & after & l & Ecels & Hdr & _ & Hstuck).
    assert (HC := HF). rewrite Ecels in HC. apply Forall2_app_inv_r in HC. destruct HC as (b0 & rest & _ & HC & Es).
    inversion HC as [|cel ? a0 ? HR _]; subst rest. subst. destruct HR as (Ed & _ & Ev). rewrite Ed in Hdr.
    destruct (Hcels cel l) as [[view Hv] Hm]; [rewrite Es; apply in_or_app; right; now left|exact Hdr|].
    destruct (Ev view Hv) as (view2 & Hv' & _).
    destruct Hstuck as [N|(Hd & im & E1 & E2 & E3 & E4)|_ _ N|view' _ N|view' x y back' _ _ Px Py E' N].
    + destruct Hv' as (im & _ & Ei & _). unfold no_image in N. congruence.
    + destruct Hv' as (im' & own & Ei & _ & Hde & _). assert (im' = im) as -> by congruence.
      unfold decoded, stored in Hde. rewrite Hd, E3 in Hde. destruct Hde as [-> Hde]. contradiction.
    + now apply N in Hv'.
    + contradiction.
    + destruct (Hst x y back' Px Py E') as (p & _ & H). rewrite Ecels in H.
      change (before ++ cel' :: after) with (before ++ [cel'] ++ after) in H. rewrite app_assoc in H.
      apply stacked_app in H. destruct H as (mid & H & _). now apply N in H.
Qed.
End Place.
