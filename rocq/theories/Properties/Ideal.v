(** Compositing against the unrounded formulas: normal (C79) and the other
    separable blend modes (C80). *)
From Coq Require Import QArith Qabs Qround.
From Verif.Model Require Import Blend.
From Verif.Spec Require Import Bytes BlendSpec Composite Ideal.
From Verif.Proofs Require Import IdealProps.
From Verif.Tests Require Import Configs.

(** ** C79 *)
Theorem C79_normal : forall c back front o r, is_px back -> is_px front -> is_byte o ->
  normal c back front o = Ok r ->
  (Qabs (inject_Z (pa r) - 255 * ideal_alpha (unit (pa back)) (strength front o)) <= 1)%Q /\
  over_within 2 back front (strength front o) r.
Proof. exact normal_ideal. Qed.
Print Assumptions C79_normal.

(** Without rounding the alpha is 227.6 and the red 100 * 0.502 + 200 * 0.784 * 0.498 = 128.3;
    the result is 144 * 228 / 255 = 128.8. *)
Example C79_example :
  let back := mkpx 200 100 50 200 in let front := mkpx 100 200 10 128 in
  normal dbg64 back front 255 = Ok (mkpx 144 156 28 228) /\
  Qfloor (10 * (255 * ideal_alpha (unit (pa back)) (strength front 255))) = 2276 /\
  Qfloor (10 * ideal_over (pr back) (pr front) (unit (pa back)) (strength front 255)) = 1283.
Proof. repeat split; vm_compute; reflexivity. Qed.

(** ** C80 *)
(** The full claim is that every separable mode composites as in the W3C
    specification, where the weight of the mode's colour is the alpha of the
    back: [mix_within k (unit (pa back))] for a small [k].  Over opaque backs it
    does: *)
Theorem C80_opaque_partial : forall c m back front o p f r,
  separable m -> is_px back -> is_px front -> is_byte o -> pa back = 255 ->
  mode_colour m back front p -> blend_mode_to_blend_fn c m = Ok f -> f back front o = Ok r ->
  mix_within 2 (unit (pa back)) back front p (strength front o) r.
Proof. exact opaque_ideal. Qed.
Print Assumptions C80_opaque_partial.

(** In general the mode's colour has a larger weight, ... *)
Theorem C80_weight : forall c m back front o p f r,
  separable m -> is_px back -> is_px front -> is_byte o ->
  mode_colour m back front p -> blend_mode_to_blend_fn c m = Ok f -> f back front o = Ok r ->
  mix_within 4 (weight (unit (pa back)) (strength front o)) back front p (strength front o) r.
Proof. exact weight_ideal. Qed.
Print Assumptions C80_weight.

(** ... which makes a difference of up to a quarter of the range. *)
Theorem C80_refuted : exists m back front p r, separable m /\ is_px back /\ is_px front /\ mode_colour m back front p /\
  (forall c, exists f, blend_mode_to_blend_fn c m = Ok f /\ f back front 255 = Ok r) /\
  ~ mix_within 63 (unit (pa back)) back front p (strength front 255) r.
Proof. exact translucent_refuted. Qed.
Print Assumptions C80_refuted.

(** Black in difference mode over white of alpha 128: 128 according to the
    specification, 192 here. *)
Example C80_example :
  let back := mkpx 255 255 255 128 in let front := mkpx 0 0 0 255 in let p := mkpx 255 255 255 255 in
  mode_colour BDifference back front p /\
  (exists f, blend_mode_to_blend_fn rel64 BDifference = Ok f /\ f back front 255 = Ok (mkpx 192 192 192 255)) /\
  (ideal_mix (unit 128) 255 0 255 (unit 128) (strength front 255) == 128)%Q /\
  Qfloor (ideal_mix (weight (unit 128) (strength front 255)) 255 0 255 (unit 128) (strength front 255)) = 191.
Proof.
  split; [repeat split; reflexivity|]. split; [eexists; split; [reflexivity|vm_compute; reflexivity]|].
  split; vm_compute; reflexivity.
Qed.
