(** The alphas of pictures (C134). *)
From Verif.Model Require Import Loader.
From Verif.Spec Require Import Bytes ImageSpec BlendSpec RenderSpec Refusals Made Convert Trimmed Cut Alphas.
From Verif.Proofs Require Import BlendFacts BlendProps ImageFacts RenderFacts RenderProps CanvasProps MadeProps SimProps TrimProps CutProps.

(** ** One pixel *)
Lemma normal_px_over back front o : is_px back -> is_px front -> is_byte o ->
  pa (normal_px back front o) = over_alpha (pa back) (div255 (pa front * o)).
Proof.
  intros Hb Hf Ho. pose proof (fa_byte _ _ Hf Ho) as Hfa. unfold normal_px, over_alpha.
  destruct (Z.eqb_spec (pa back) 0) as [E|_]; [cbn [pa mkpx]; rewrite E; rewrite Z.mul_0_l; change (div255 0) with 0; lia|].
  destruct (Z.eqb_spec (pa front) 0) as [E|_]; [rewrite E, Z.mul_0_l; change (div255 0) with 0; rewrite Z.mul_0_r; change (div255 0) with 0; lia|reflexivity].
Qed.
Lemma merge_px_mix back front o : pa (merge_px back front o) = mix (pa back) (pa front) o.
Proof. unfold merge_px. destruct (Z.eqb_spec (mix (pa back) (pa front) o) 0) as [E|_]; [now rewrite E|]. destruct (pa back =? 0), (pa front =? 0); reflexivity. Qed.

Lemma hsl_px c m f back front o r : hsl m -> is_px back -> is_px front -> is_byte o ->
  blend_mode_to_blend_fn c m = Ok f -> f back front o = Ok r ->
  exists p, is_px p /\ pa p = (256 - pa front) mod 256 /\ r = blend_px back front p o.
Proof.
  intros Hm Hb Hf Ho Ef E. destruct (hsl_release m back front Hm Hb Hf) as (p & Hp & Ep & HR & HD). exists p. split; [exact Hp|]. split; [exact Ep|].
  destruct (debug c) eqn:D.
  - destruct (HD c D) as (g & Eg & G). assert (g = f) as -> by congruence. destruct (G o Ho) as [G1|G1]; congruence.
  - destruct (HR c D) as (g & Eg & G). assert (g = f) as -> by congruence. rewrite (G o Ho) in E. congruence.
Qed.
Lemma separable_over c m f back front o r : separable m -> is_px back -> is_px front -> is_byte o ->
  blend_mode_to_blend_fn c m = Ok f -> f back front o = Ok r ->
  pa r = over_alpha (pa back) (div255 (pa front * o)).
Proof.
  intros Hm Hb Hf Ho Ef E. rewrite (same_alpha m back front o Hm Hb Hf Ho c f r _ Ef E (normal_eq c back front o Hb Hf Ho)).
  now apply normal_px_over.
Qed.
Lemma alpha_only c m m' f f' back back' p q o r r' : akin m m' -> is_px back -> is_px back' -> is_px p -> is_px q -> is_byte o ->
  pa back = pa back' -> pa p = pa q ->
  blend_mode_to_blend_fn c m = Ok f -> blend_mode_to_blend_fn c m' = Ok f' -> f back p o = Ok r -> f' back' q o = Ok r' -> pa r = pa r'.
Proof.
  intros [[Hm Hm']|[Hm Hm']] Hb Hb' Hp Hq Ho Eb Ep Ef Ef' E E'.
  - rewrite (separable_over c m f back p o r) by assumption. rewrite (separable_over c m' f' back' q o r') by assumption. now rewrite Eb, Ep.
  - destruct (hsl_px c m f back p o r Hm Hb Hp Ho Ef E) as (x & Hx & Ex & ->).
    destruct (hsl_px c m' f' back' q o r' Hm' Hb' Hq Ho Ef' E') as (y & Hy & Ey & ->).
    unfold blend_px. rewrite <- Eb. destruct (_ =? 0).
    + rewrite !normal_px_over by assumption. now rewrite Eb, Ep.
    + rewrite !merge_px_mix, !normal_px_over by assumption. now rewrite Ex, Ey, <- Eb, <- Ep.
Qed.
Lemma akin_self c m f : blend_mode_to_blend_fn c m = Ok f -> akin m m.
Proof. intros E. destruct (mode_cases m) as [[H|H]|[w ->]]; [left; auto|right; auto|]. rewrite unknown_mode in E. discriminate. Qed.

(** ** Lists of layers *)
Lemma covering_unique ts : forall a r r', covering ts a r -> covering ts a r' -> r = r'.
Proof.
  induction ts as [|t ts IH]; intros a r r' H H'; inversion H; inversion H'; subst; [reflexivity|].
  match goal with E : (_, _, _) = (_, _, _) |- _ => injection E as <- <- <- end.
  eapply IH; [eassumption|].
  repeat match goal with A : rounded ?n 255 ?u, B : rounded ?n 255 ?v |- _ =>
    tryif constr_eq u v then fail else (assert (u = v) as -> by (eapply (rounded_unique n 255); [lia|exact A|exact B]); clear B) end.
  assumption.
Qed.

Definition fair (t : px * blend_mode * Z) : Prop := match t with (p, _, o) => is_px p /\ is_byte o end.
Lemma lying_fair c inflate s sel x y cels ts : cfg_ok c -> inflate_ok inflate -> typed c s ->
  lying inflate s sel x y cels ts -> Forall fair ts.
Proof.
  intros Hc Hi Hs. induction 1 as [|cel cels ts K H IH|cel cels l p ts D (Ec & v & V & E) H IH]; [constructor|exact IH|].
  constructor; [|exact IH]. split; [eapply view_pixel; eassumption|]. eapply made_opacity; [exact Hs|]. eapply drawn_layer; eassumption.
Qed.
Lemma blended_covering c ts : Forall fair ts -> separable_ones ts -> forall back p, is_px back -> blended c ts back p ->
  covering ts (pa back) (pa p).
Proof.
  induction 1 as [|[[front m] o] ts [Hf Ho] HF IH]; intros Hs back p Hb B; inversion B; subst; [constructor|].
  inversion Hs as [|? ? Hm Hs0]; subst.
  assert (Hmid : is_px mid). { pose proof (mode_fn c m f back front o Hb Hf Ho ltac:(assumption)) as G. match goal with E : f back front o = _ |- _ => now rewrite E in G end. }
  pose proof (separable_over c m f back front o mid Hm Hb Hf Ho ltac:(assumption) ltac:(assumption)) as E.
  pose proof (fa_byte _ _ Hf Ho) as Hfa. assert (Ba : is_byte (pa back)) by apply Hb. assert (Fa : is_byte (pa front)) by apply Hf.
  apply covering_cons with (share := div255 (pa front * o)) (both := div255 (pa back * div255 (pa front * o))).
  - apply div255_rounded. now apply prod_byte.
  - apply div255_rounded. now apply prod_byte.
  - replace (pa back + _ - _) with (pa mid) by (rewrite E; unfold over_alpha; lia). now apply IH.
Qed.
Lemma blended_veils c ts ts' : Forall2 same_veil ts ts' -> Forall fair ts -> Forall fair ts' ->
  forall back back' p p', is_px back -> is_px back' -> pa back = pa back' -> blended c ts back p -> blended c ts' back' p' -> pa p = pa p'.
Proof.
  induction 1 as [|[[front m] o] [[front' m'] o'] ts ts' (Ea & Em & Eo) HV IH]; intros HF HF' back back' p p' Hb Hb' E B B'.
  - inversion B; inversion B'; subst. exact E.
  - subst o'. apply Forall_cons_iff in HF, HF'. destruct HF as [[Hf Ho] HF0], HF' as [[Hf' _] HF0'].
    inversion B as [|? ? ? f ? ? mid ? Ef Er B0]; inversion B' as [|? ? ? f' ? ? mid' ? Ef' Er' B0']; subst.
    assert (Hmid : is_px mid). { pose proof (mode_fn c m f back front o Hb Hf Ho Ef) as G. now rewrite Er in G. }
    assert (Hmid' : is_px mid'). { pose proof (mode_fn c m' f' back' front' o Hb' Hf' Ho Ef') as G. now rewrite Er' in G. }
    apply (IH HF0 HF0' mid mid'); try assumption.
    exact (alpha_only c m m' f f' back back' front front' o mid mid' Em Hb Hb' Hf Hf' Ho E Ea Ef Ef' Er Er').
Qed.

(** Nothing is covered exactly if nothing was below and all shares round to 0. *)
Lemma covering_zero ts : Forall fair ts -> forall a r, is_byte a -> covering ts a r ->
  (r = 0 <-> a = 0 /\ Forall (fun t => match t with (p, _, o) => 2 * (pa p * o) < 255 end) ts).
Proof.
  induction 1 as [|[[front m] o] ts [Hf Ho] HF IH]; intros a r Ha H.
  - inversion H; subst. split; [intros ->; split; [reflexivity|constructor]|now intros [-> _]].
  - inversion H as [|? ? ? ? ? share both ? R1 R2 H0]; subst.
    assert (Fa : is_byte (pa front)) by apply Hf. pose proof (prod_byte (pa front) o Fa Ho) as P1.
    pose proof (fa_byte front o Hf Ho) as Hfa.
    assert (share = div255 (pa front * o)) as -> by (eapply (rounded_unique (pa front * o) 255); [lia|exact R1|now apply div255_rounded]).
    pose proof (prod_byte a _ Ha Hfa) as P2.
    assert (both = div255 (a * div255 (pa front * o))) as -> by (eapply (rounded_unique (a * div255 (pa front * o)) 255); [lia|exact R2|now apply div255_rounded]).
    pose proof (over_alpha_bounds a _ Ha Hfa) as B. unfold over_alpha in B.
    rewrite (IH (a + div255 (pa front * o) - div255 (a * div255 (pa front * o))) r); [|unfold is_byte in *; lia|exact H0].
    unfold rounded in R1. rewrite Forall_cons_iff. unfold is_byte in Ha, Hfa. split.
    + intros [E Hall]. assert (Ez : div255 (pa front * o) = 0) by lia. split; [lia|]. split; [|exact Hall]. rewrite Ez in R1. lia.
    + intros [-> [E Hall]]. split; [|exact Hall]. assert (Ez : div255 (pa front * o) = 0) by lia. rewrite Ez. reflexivity.
Qed.

(** ** Frames *)
Lemma frame_covering c inflate s sel : cfg_ok c -> inflate_ok inflate -> typed c s -> made_fits c s ->
  forall k sf target r, nth_error (api_frames s) k = Some sf -> is_bytes target ->
  render_frame c inflate s (Z.of_nat k) target sel = Ok r ->
  forall x y ts back p, on_canvas s x y -> lying inflate s sel x y (sf_cels sf) ts -> separable_ones ts ->
  pixel (canvas_width s) target x y = Some back -> pixel (canvas_width s) r x y = Some p ->
  covering ts (pa back) (pa p).
Proof.
  intros Hc Hinf Hty Hfit k sf t r Hk Hb R x y ts back p [Hx Hy] L Hs Eb Ep.
  apply (made_exactly c s Hc Hty Hfit inflate Hinf sel k sf t r Hk Hb) in R. destruct R as (_ & _ & _ & _ & R).
  destruct (R x y Hx Hy) as (back1 & p1 & B1 & B2 & B3). assert (back1 = back) as -> by congruence. assert (p1 = p) as -> by congruence.
  apply stacked_lying in B3. destruct B3 as (ts1 & L1 & Bl). rewrite <- (lying_unique _ _ _ _ _ _ _ _ L L1) in Bl.
  eapply blended_covering; [eapply lying_fair; eassumption|exact Hs| |exact Bl]. eapply pixel_px; eassumption.
Qed.
Lemma frame_veils c inflate s s' sel sel' : cfg_ok c -> inflate_ok inflate ->
  typed c s -> typed c s' -> made_fits c s -> made_fits c s' ->
  forall k k' sf sf' target target' r r', nth_error (api_frames s) k = Some sf -> nth_error (api_frames s') k' = Some sf' ->
  is_bytes target -> is_bytes target' ->
  render_frame c inflate s (Z.of_nat k) target sel = Ok r -> render_frame c inflate s' (Z.of_nat k') target' sel' = Ok r' ->
  forall x y x' y' ts ts' back back' p p', on_canvas s x y -> on_canvas s' x' y' ->
  lying inflate s sel x y (sf_cels sf) ts -> lying inflate s' sel' x' y' (sf_cels sf') ts' -> Forall2 same_veil ts ts' ->
  pixel (canvas_width s) target x y = Some back -> pixel (canvas_width s') target' x' y' = Some back' -> pa back = pa back' ->
  pixel (canvas_width s) r x y = Some p -> pixel (canvas_width s') r' x' y' = Some p' -> pa p = pa p'.
Proof.
  intros Hc Hinf Hty Hty' Hfit Hfit' k k' sf sf' t t' r r' Hk Hk' Hb Hb' R R' x y x' y' ts ts' back back' p p' [Hx Hy] [Hx' Hy'] L L' HV E1 E2 EA E3 E4.
  apply (made_exactly c s Hc Hty Hfit inflate Hinf sel k sf t r Hk Hb) in R. destruct R as (_ & _ & _ & _ & R).
  apply (made_exactly c s' Hc Hty' Hfit' inflate Hinf sel' k' sf' t' r' Hk' Hb') in R'. destruct R' as (_ & _ & _ & _ & R').
  destruct (R x y Hx Hy) as (b1 & p1 & B1 & B2 & B3). destruct (R' x' y' Hx' Hy') as (b2 & p2 & C1 & C2 & C3).
  assert (b1 = back) as -> by congruence. assert (p1 = p) as -> by congruence.
  assert (b2 = back') as -> by congruence. assert (p2 = p') as -> by congruence.
  apply stacked_lying in B3, C3. destruct B3 as (ts1 & L1 & Bl1), C3 as (ts2 & L2 & Bl2).
  rewrite <- (lying_unique _ _ _ _ _ _ _ _ L L1) in Bl1. rewrite <- (lying_unique _ _ _ _ _ _ _ _ L' L2) in Bl2.
  eapply (blended_veils c ts ts' HV); [eapply lying_fair; [| | |exact L]; eassumption|eapply lying_fair; [| | |exact L']; eassumption|
    eapply pixel_px; [|exact E1]; assumption|eapply pixel_px; [|exact E2]; assumption|exact EA|exact Bl1|exact Bl2].
Qed.
Lemma frame_clear c inflate s sel : cfg_ok c -> inflate_ok inflate -> typed c s -> made_fits c s ->
  forall k sf target r, nth_error (api_frames s) k = Some sf -> is_bytes target ->
  render_frame c inflate s (Z.of_nat k) target sel = Ok r ->
  forall x y ts back p, on_canvas s x y -> lying inflate s sel x y (sf_cels sf) ts -> separable_ones ts ->
  pixel (canvas_width s) target x y = Some back -> pixel (canvas_width s) r x y = Some p ->
  (pa p = 0 <-> pa back = 0 /\ Forall (fun t => match t with (front, _, o) => 2 * (pa front * o) < 255 end) ts).
Proof.
  intros Hc Hinf Hty Hfit k sf t r Hk Hb R x y ts back p Hon L Hs Eb Ep. apply covering_zero.
  - eapply lying_fair; [| | |exact L]; eassumption.
  - eapply pixel_px; eassumption.
  - eapply frame_covering; eassumption.
Qed.
