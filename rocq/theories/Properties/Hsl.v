(** Property C71: what the hue, saturation, colour and luminosity modes compute. *)
From Coq Require Import QArith.
From Verif.Model Require Import Blend.
From Verif.Spec Require Import Bytes BlendSpec HslSpec.
From Verif.Proofs Require Import HslProps.
From Verif.Tests Require Import Configs.
Local Open Scope Z_scope.

(** ** C71 *)
(** Wanted: over an opaque backdrop an opaque front gives the colour
    [w3c_hsl m back front] (or [ase_hsl]), rounded.  Refuted: the backdrop
    below is left as it is, the red channel of the formula is far off, ... *)
Theorem C71_formula_refuted : forall m, hsl m -> forall c, debug c = false ->
  exists f, blend_mode_to_blend_fn c m = Ok f /\
    f (mkpx 200 100 50 255) (mkpx 10 20 30 255) 255 = Ok (mkpx 200 100 50 255) /\
    let '(w, _, _) := w3c_hsl m (mkpx 200 100 50 255) (mkpx 10 20 30 255) in
    let '(a, _, _) := ase_hsl m (mkpx 200 100 50 255) (mkpx 10 20 30 255) in far 60 w 200 /\ far 60 a 200.
Proof. exact hsl_off. Qed.
Print Assumptions C71_formula_refuted.

(** ... and an opaque front never changes a channel by more than one. *)
Theorem C71_faint_refuted : forall m back front o, hsl m -> is_px back -> is_px front -> is_byte o ->
  pa back = 255 -> pa front = 255 ->
  forall c, debug c = false -> exists f r, blend_mode_to_blend_fn c m = Ok f /\ f back front o = Ok r /\
    Z.abs (pr r - pr back) <= 1 /\ Z.abs (pg r - pg back) <= 1 /\ Z.abs (pb r - pb back) <= 1 /\ pa r = 255.
Proof. exact hsl_faint. Qed.
Print Assumptions C71_faint_refuted.

(** What is computed instead, for all colours and up to a thousandth before
    the fraction is cut off. *)
Theorem C71_channels_partial : forall m back front, hsl m -> is_px back -> is_px front -> pa back = 255 ->
  exists p, is_px p /\ pa p = (256 - pa front) mod 256 /\ unscaled m back front p /\
    forall c, debug c = false -> exists f, blend_mode_to_blend_fn c m = Ok f /\
      forall o, is_byte o -> f back front o = normal c back p o.
Proof. exact hsl_over_opaque. Qed.
Print Assumptions C71_channels_partial.

(** Black keeps its luminosity. *)
Theorem C71_black_partial : forall m back front, hsl m -> is_px back -> is_px front -> pa back = 255 ->
  (let p := match m with BLuminosity => front | _ => back end in pr p = 0 /\ pg p = 0 /\ pb p = 0) ->
  forall c, debug c = false -> exists f, blend_mode_to_blend_fn c m = Ok f /\
    forall o, is_byte o -> f back front o = normal c back (mkpx 0 0 0 ((256 - pa front) mod 256)) o.
Proof. exact hsl_black. Qed.
Print Assumptions C71_black_partial.

(** The formula, rounded down, for the witness and the four modes. *)
Example C71_formula_example : map (fun m => let '(x, y, z) := w3c_hsl m (mkpx 200 100 50 255) (mkpx 10 20 30 255) in
    (Qround.Qfloor x, Qround.Qfloor y, Qround.Qfloor z)) [BHue; BSaturation; BColor; BLuminosity] =
  [(63, 138, 213); (134, 121, 114); (116, 126, 136); (36, 12, 0)].
Proof. vm_compute. reflexivity. Qed.
(** Front alpha 1 counts as opaque, which shows the channels. *)
Example C71_channels_example :
  hsl_hue rel64 (mkpx 200 100 50 255) (mkpx 10 20 30 1) 255 = Ok (mkpx 191 95 255 255) /\
  hsl_saturation rel64 (mkpx 200 100 50 255) (mkpx 10 20 30 1) 255 = Ok (mkpx 255 238 102 255) /\
  hsl_color rel64 (mkpx 200 100 50 255) (mkpx 10 20 30 1) 255 = Ok (mkpx 191 95 255 255) /\
  hsl_luminosity rel64 (mkpx 200 100 50 255) (mkpx 10 20 30 1) 255 = Ok (mkpx 228 95 28 255).
Proof. repeat split; vm_compute; reflexivity. Qed.
(** Equal channels, and grey colours *)
Example C71_ties_example :
  hsl_hue rel64 (mkpx 0 0 5 255) (mkpx 3 3 10 1) 255 = Ok (mkpx 159 122 183 255) /\
  hsl_hue rel64 (mkpx 0 1 5 255) (mkpx 9 3 3 1) 255 = Ok (mkpx 22 36 58 255) /\
  hsl_color rel64 (mkpx 7 7 7 255) (mkpx 200 200 200 1) 255 = Ok (mkpx 0 0 0 255).
Proof. repeat split; vm_compute; reflexivity. Qed.
