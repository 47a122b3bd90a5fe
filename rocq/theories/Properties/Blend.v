(** Properties of the blend functions (C43-C50, C53-C55). *)
From Verif.Model Require Import Blend.
From Verif.Spec Require Import Bytes BlendSpec.
From Verif.Proofs Require Import BlendProps.
From Verif.Tests Require Import Configs.

(** ** C43 *)
Theorem C43_mul8 : forall c a b, is_byte a -> is_byte b ->
  exists q, mul8 c a b = Ok q /\ is_byte q /\ rounded (a * b) 255 q.
Proof. exact mul8_nearest. Qed.
Print Assumptions C43_mul8.

Theorem C43_div8 : forall c a b, 0 <= a < b -> is_byte b ->
  exists q, div8 c a b = Ok q /\ is_byte q /\ rounded (a * 255) b q.
Proof. exact div8_rounds. Qed.
Print Assumptions C43_div8.

(** [blend8] is off for some falling steps, by 1/255 of a unit, ... *)
Theorem C43_blend8_refuted : forall c, blend8 c 1 0 128 = Ok 1 /\ ~ rounded ((0 - 1) * 128) 255 (1 - 1).
Proof. exact blend8_off. Qed.
Print Assumptions C43_blend8_refuted.

(** ... and these are the only ones. *)
Theorem C43_blend8_partial : forall c b s o, is_byte b -> is_byte s -> is_byte o ->
  exists q, blend8 c b s o = Ok q /\ between b s q /\
    (rounded ((s - b) * o) 255 (q - b) <-> ~ (s < b /\ ((b - s) * o) mod 255 = 128)) /\
    2 * Z.abs (255 * (q - b) - (s - b) * o) <= 256.
Proof. exact blend8_nearest. Qed.
Print Assumptions C43_blend8_partial.

Example C43_example : mul8 dbg64 200 100 = Ok 78 /\ div8 dbg64 100 200 = Ok 128 /\ blend8 dbg64 200 100 128 = Ok 150.
Proof. repeat split. Qed.

(** ** C44 *)
Theorem C44_total : forall m back front o, separable m -> is_px back -> is_px front -> is_byte o ->
  exists r, is_px r /\ forall c, exists f, blend_mode_to_blend_fn c m = Ok f /\ f back front o = Ok r.
Proof. exact no_panic. Qed.
Print Assumptions C44_total.

Example C44_example : separable BColorBurn /\
  color_burn dbg64 (mkpx 200 100 0 128) (mkpx 255 0 1 77) 200 = Ok (mkpx 209 63 0 158) /\
  color_burn rel32 (mkpx 200 100 0 128) (mkpx 255 0 1 77) 200 = Ok (mkpx 209 63 0 158).
Proof. repeat split. Qed.

(** ** C45 *)
Theorem C45_laws : forall c back front o, is_px back -> is_px front -> is_byte o ->
  exists r, normal c back front o = Ok r /\ is_px r /\
    (pa front = 255 -> o = 255 -> r = front) /\
    (pa back <> 0 -> pa front = 0 -> r = back) /\
    (pa back <> 0 -> o = 0 -> r = back) /\
    (pa back = 0 -> pr r = pr front /\ pg r = pg front /\ pb r = pb front /\ rounded (pa front * o) 255 (pa r)) /\
    pa back <= pa r /\
    (pa back <> 0 -> between (pr back) (pr front) (pr r) /\ between (pg back) (pg front) (pg r) /\
                     between (pb back) (pb front) (pb r)).
Proof. exact normal_laws. Qed.
Print Assumptions C45_laws.

(** The result itself: the alpha of both together, rounded, and each channel
    moved by the front's share of it, rounded towards the back. *)
Theorem C45_value : forall c back front o, is_px back -> is_px front -> is_byte o -> pa back <> 0 -> pa front <> 0 ->
  exists r fa, normal c back front o = Ok r /\ rounded (pa front * o) 255 fa /\
    2 * Z.abs (255 * pa r - (255 * fa + 255 * pa back - fa * pa back)) <= 255 /\
    pr r = pr back + Z.quot ((pr front - pr back) * fa) (pa r) /\
    pg r = pg back + Z.quot ((pg front - pg back) * fa) (pa r) /\
    pb r = pb back + Z.quot ((pb front - pb back) * fa) (pa r).
Proof. exact normal_value. Qed.
Print Assumptions C45_value.

Example C45_example : normal dbg64 (mkpx 0 100 200 128) (mkpx 255 0 100 128) 255 = Ok (mkpx 170 34 134 192).
Proof. reflexivity. Qed.

(** ** C46 *)
Theorem C46_formula : forall m back front, separable m -> is_px back -> is_px front -> pa back = 255 -> pa front = 255 ->
  exists p, is_px p /\ pa p = 255 /\
    formula m (pr back) (pr front) (pr p) /\ formula m (pg back) (pg front) (pg p) /\
    formula m (pb back) (match m with BSoftLight => pb back | _ => pb front end) (pb p) /\
    forall c, exists f, blend_mode_to_blend_fn c m = Ok f /\ f back front 255 = Ok p.
Proof. exact opaque_on_opaque. Qed.
Print Assumptions C46_formula.

(** A front that is not opaque: normal blending of the same colour. *)
Theorem C46_any_front : forall m back front, separable m -> is_px back -> is_px front -> pa back = 255 ->
  exists p, is_px p /\ pa p = pa front /\
    formula m (pr back) (pr front) (pr p) /\ formula m (pg back) (pg front) (pg p) /\
    formula m (pb back) (match m with BSoftLight => pb back | _ => pb front end) (pb p) /\
    forall c, exists f, blend_mode_to_blend_fn c m = Ok f /\
      forall o, is_byte o -> f back front o = normal c back p o.
Proof. exact over_opaque. Qed.
Print Assumptions C46_any_front.

(** The formulas leave no choice. *)
Theorem C46_determined : forall m b s p q, is_byte b -> is_byte s -> formula m b s p -> formula m b s q -> p = q.
Proof. exact formula_unique. Qed.
Print Assumptions C46_determined.

Example C46_example :
  multiply dbg64 (mkpx 200 100 50 255) (mkpx 100 100 100 255) 255 = Ok (mkpx 78 39 20 255) /\
  color_dodge dbg64 (mkpx 200 100 0 255) (mkpx 100 100 100 255) 255 = Ok (mkpx 255 165 0 255) /\
  soft_light dbg64 (mkpx 10 100 50 255) (mkpx 200 50 50 255) 255 = Ok (mkpx 25 63 26 255).
Proof. repeat split; vm_compute; reflexivity. Qed.

(** ** C47 *)
(** Refuted: grey on grey is not grey, because blue ignores the front. *)
Theorem C47_blue_refuted : forall c,
  exists r, soft_light c (mkpx 100 100 100 255) (mkpx 200 200 200 255) 255 = Ok r /\ pg r = pr r /\ pb r <> pr r.
Proof. exact soft_light_blue. Qed.
Print Assumptions C47_blue_refuted.

(** It holds when front and back have the same blue; C46 says what happens
    otherwise. *)
Theorem C47_same_blue_partial : forall back front, is_px back -> is_px front -> pa back = 255 -> pb front = pb back ->
  exists p, is_px p /\ pa p = pa front /\
    formula BSoftLight (pr back) (pr front) (pr p) /\ formula BSoftLight (pg back) (pg front) (pg p) /\
    formula BSoftLight (pb back) (pb front) (pb p) /\
    forall c o, is_byte o -> soft_light c back front o = normal c back p o.
Proof. exact soft_light_fixed_front. Qed.
Print Assumptions C47_same_blue_partial.

(** ** C48 *)
(** Refuted: debug builds panic for every front that is not (nearly)
    transparent, ... *)
Theorem C48_debug_refuted : forall m back front o c, hsl m -> is_px back -> is_px front -> is_byte o -> debug c = true ->
  pa back <> 0 -> 2 <= pa front ->
  exists f, blend_mode_to_blend_fn c m = Ok f /\ f back front o = Panic PDebugAssert.
Proof. exact hsl_debug_panics. Qed.
Print Assumptions C48_debug_refuted.

(** ... release builds use the alpha 256 - a instead of a, ... *)
Theorem C48_alpha_refuted : forall m, hsl m -> forall c, debug c = false ->
  exists f r, blend_mode_to_blend_fn c m = Ok f /\
    f (mkpx 200 100 50 128) (mkpx 10 20 30 255) 255 = Ok r /\ pa r = 159 /\
    normal c (mkpx 200 100 50 128) (mkpx 10 20 30 255) 255 = Ok (mkpx 10 20 30 255).
Proof. exact hsl_alpha_off. Qed.
Print Assumptions C48_alpha_refuted.

(** ... exactly: *)
Theorem C48_alpha_partial : forall m back front, hsl m -> is_px back -> is_px front -> pa back = 255 ->
  exists p, is_px p /\ pa p = (256 - pa front) mod 256 /\
    forall c, debug c = false -> exists f, blend_mode_to_blend_fn c m = Ok f /\
      forall o, is_byte o -> f back front o = normal c back p o.
Proof. exact hsl_wrong_alpha. Qed.
Print Assumptions C48_alpha_partial.

(** Release builds do not panic; debug builds do not differ otherwise. *)
Theorem C48_outcomes_partial : forall m back front o, hsl m -> is_px back -> is_px front -> is_byte o ->
  exists r, is_px r /\
    (forall c, debug c = false -> exists f, blend_mode_to_blend_fn c m = Ok f /\ f back front o = Ok r) /\
    (forall c, debug c = true -> exists f, blend_mode_to_blend_fn c m = Ok f /\
       (f back front o = Panic PDebugAssert \/ f back front o = Ok r)).
Proof. exact hsl_outcomes. Qed.
Print Assumptions C48_outcomes_partial.

Example C48_example : hsl_color rel64 (mkpx 255 255 255 255) (mkpx 255 255 255 255) 255 = Ok (mkpx 254 254 254 255).
Proof. vm_compute. reflexivity. Qed.

(** ** C49 *)
Theorem C49_transparent_front : forall m back front o, separable m -> is_px back -> is_px front -> is_byte o ->
  pa back <> 0 -> pa front = 0 ->
  forall c, exists f, blend_mode_to_blend_fn c m = Ok f /\ f back front o = Ok back.
Proof. exact transparent_front. Qed.
Print Assumptions C49_transparent_front.

Theorem C49_transparent_back : forall m back front o c f, pa back = 0 -> blend_mode_to_blend_fn c m = Ok f ->
  f back front o = normal c back front o.
Proof. exact transparent_back. Qed.
Print Assumptions C49_transparent_back.

(** Refuted for the HSL modes in debug builds. *)
Theorem C49_hsl_refuted : forall m, hsl m -> forall c, debug c = true ->
  exists f, blend_mode_to_blend_fn c m = Ok f /\
    f (mkpx 200 100 50 255) (mkpx 10 20 30 0) 255 = Panic PDebugAssert.
Proof. exact hsl_transparent_panics. Qed.
Print Assumptions C49_hsl_refuted.

Theorem C49_hsl_partial : forall m back front o, hsl m -> is_px back -> is_px front -> is_byte o ->
  pa back <> 0 -> pa front = 0 ->
  forall c, debug c = false -> exists f, blend_mode_to_blend_fn c m = Ok f /\ f back front o = Ok back.
Proof. exact hsl_transparent. Qed.
Print Assumptions C49_hsl_partial.

Example C49_example : divide dbg64 (mkpx 10 20 30 5) (mkpx 0 0 0 0) 255 = Ok (mkpx 10 20 30 5) /\
  divide dbg64 (mkpx 10 20 30 0) (mkpx 1 2 3 100) 255 = Ok (mkpx 1 2 3 100).
Proof. split; reflexivity. Qed.

(** ** C50 *)
Theorem C50_symmetric : forall m back front, symmetric_mode m -> is_px back -> is_px front -> pa back = 255 -> pa front = 255 ->
  forall c, exists f r, blend_mode_to_blend_fn c m = Ok f /\ f back front 255 = Ok r /\ f front back 255 = Ok r.
Proof. exact symmetric. Qed.
Print Assumptions C50_symmetric.

Theorem C50_overlay : forall back front, is_px back -> is_px front -> pa back = 255 -> pa front = 255 ->
  forall c, exists r, overlay c back front 255 = Ok r /\ hard_light c front back 255 = Ok r.
Proof. exact overlay_hard_light. Qed.
Print Assumptions C50_overlay.

Theorem C50_neutral : forall m n back front o, neutral m = Some n -> is_px back -> is_px front -> is_byte o -> pa back = 255 ->
  pr front = n -> pg front = n -> pb front = n ->
  forall c, exists f, blend_mode_to_blend_fn c m = Ok f /\ f back front o = Ok back.
Proof. exact neutral_front. Qed.
Print Assumptions C50_neutral.

Example C50_example :
  exclusion dbg64 (mkpx 10 20 30 255) (mkpx 200 100 50 255) 255 = exclusion dbg64 (mkpx 200 100 50 255) (mkpx 10 20 30 255) 255 /\
  color_burn dbg64 (mkpx 10 20 30 255) (mkpx 255 255 255 99) 77 = Ok (mkpx 10 20 30 255).
Proof. split; reflexivity. Qed.

(** ** C53 *)
Theorem C53_alpha : forall m back front o, separable m -> is_px back -> is_px front -> is_byte o ->
  forall c f r n, blend_mode_to_blend_fn c m = Ok f -> f back front o = Ok r -> normal c back front o = Ok n ->
  pa r = pa n.
Proof. exact same_alpha. Qed.
Print Assumptions C53_alpha.

Example C53_example : exists r n, screen dbg64 (mkpx 1 2 3 100) (mkpx 4 5 6 77) 99 = Ok r /\
  normal dbg64 (mkpx 1 2 3 100) (mkpx 4 5 6 77) 99 = Ok n /\ pa r = 118 /\ pa n = 118.
Proof.
  do 2 eexists. split; [vm_compute; reflexivity|]. split; [vm_compute; reflexivity|]. split; reflexivity.
Qed.

(** ** C54 *)
Theorem C54_opacity_0 : forall m back front, separable m -> is_px back -> is_px front -> pa back <> 0 ->
  forall c, exists f, blend_mode_to_blend_fn c m = Ok f /\ f back front 0 = Ok back.
Proof. exact opacity_0. Qed.
Print Assumptions C54_opacity_0.

Example C54_example : difference dbg64 (mkpx 1 2 3 1) (mkpx 40 50 60 255) 0 = Ok (mkpx 1 2 3 1).
Proof. reflexivity. Qed.

(** ** C55 *)
Theorem C55_range : forall m back front o, separable m -> is_px back -> is_px front -> is_byte o -> pa back <> 0 ->
  forall c f r, blend_mode_to_blend_fn c m = Ok f -> f back front o = Ok r ->
  exists p, formula m (pr back) (pr front) (pr p) /\ formula m (pg back) (pg front) (pg p) /\
    formula m (pb back) (match m with BSoftLight => pb back | _ => pb front end) (pb p) /\
    hull (pr back) (pr front) (pr p) (pr r) /\ hull (pg back) (pg front) (pg p) (pg r) /\ hull (pb back) (pb front) (pb p) (pb r).
Proof. exact in_hull. Qed.
Print Assumptions C55_range.

Example C55_example : lighten dbg64 (mkpx 10 20 30 77) (mkpx 40 5 60 99) 200 = Ok (mkpx 27 15 47 131).
Proof. reflexivity. Qed.
