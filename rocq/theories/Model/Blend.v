(** Model of src/loader/blend.rs.

    Every function returns [out Empty_set _]: it can panic, but has no error
    value.  [i32] arithmetic is checked through [i32c].  [f64] arithmetic is
    Coq's [SpecFloat] (IEEE 754 binary64, round to nearest even). *)
From Verif.Model Require Export Enums.
From Coq Require Import Floats.SpecFloat.

Definition bout A := out Empty_set A.

(** blend.rs:7-13 *)
Record px := { pr : Z; pg : Z; pb : Z; pa : Z }.
(** blend.rs:43-45 [Color::new] *)
Definition mkpx (r g b a : Z) : px := {| pr := r; pg := g; pb := b; pa := a |}.

(** blend.rs:66-80 [From<&[i32]>] for a 4 element array: four debug
    assertions, then truncating casts. *)
Definition px_from_i32 (c : cfg) (v0 v1 v2 v3 : Z) : bout px :=
  let ok v := (0 <=? v) && (v <=? 255) in
  if debug c && negb (ok v0 && ok v1 && ok v2 && ok v3) then Panic PDebugAssert
  else Ok (mkpx (as_u8 v0) (as_u8 v1) (as_u8 v2) (as_u8 v3)).

(** ** f64 arithmetic (primitive type) *)
Definition f64 := spec_float.
Definition prec := 53%Z.
Definition emax := 1024%Z.
Definition fadd : f64 -> f64 -> f64 := SFadd prec emax.
Definition fsub : f64 -> f64 -> f64 := SFsub prec emax.
Definition fmul : f64 -> f64 -> f64 := SFmul prec emax.
Definition fdiv : f64 -> f64 -> f64 := SFdiv prec emax.
Definition fsqrt : f64 -> f64 := SFsqrt prec emax.
Definition fltb : f64 -> f64 -> bool := SFltb.
Definition fleb : f64 -> f64 -> bool := SFleb.
Definition is_nan (x : f64) : bool := match x with S754_nan => true | _ => false end.
(** Integer to float conversion ([u8::into::<f64>], [i32 as f64]); exact for
    the small integers used here. *)
Definition f_of_Z (z : Z) : f64 := binary_normalize prec emax z 0 false.
(** Decimal literals are the correctly rounded quotients. *)
Definition f_lit (n d : Z) : f64 := fdiv (f_of_Z n) (f_of_Z d).
(** [f64::min] / [f64::max] *)
Definition fmin (x y : f64) : f64 :=
  if is_nan x then y else if is_nan y then x else if fltb y x then y else x.
Definition fmax (x y : f64) : f64 :=
  if is_nan x then y else if is_nan y then x else if fltb x y then y else x.
(** Truncation towards zero of a finite float. *)
Definition f_trunc (x : f64) : Z :=
  match x with
  | S754_finite s m e =>
      let v := if 0 <=? e then Z.pos m * 2 ^ e else Z.pos m / 2 ^ (- e) in
      if s then - v else v
  | _ => 0
  end.
(** [as i32] / [as u32] on a float: truncate, saturate, NaN to 0. *)
Definition f_cast (lo hi : Z) (x : f64) : Z :=
  match x with
  | S754_nan => 0
  | S754_infinity s => if s then lo else hi
  | _ => Z.max lo (Z.min hi (f_trunc x))
  end.
Definition f_as_i32 (x : f64) : Z := f_cast (- 2 ^ 31) (2 ^ 31 - 1) x.
Definition f_as_u32 (x : f64) : Z := f_cast 0 (2 ^ 32 - 1) x.
(** [as i32] on a [u32]. *)
Definition u32_as_i32 (z : Z) : Z := wrap (- 2 ^ 31) 32 z.

(** blend.rs:88-101 [From<&[f64]>] *)
Definition px_from_f64 (c : cfg) (v0 v1 v2 v3 : f64) : bout px :=
  let s v := f_as_i32 (fmul v (f_of_Z 255)) in
  px_from_i32 c (s v0) (s v1) (s v2) (s v3).

(** ** Util, blend.rs:418-512 *)

(** blend.rs:447-451 *)
Definition mul8 (c : cfg) (a b : Z) : bout Z :=
  let* m := i32c c (a * b) in
  let* t := i32c c (m + 0x80) in
  let* s := i32c c (Z.shiftr t 8 + t) in
  Ok (as_u8 (Z.shiftr s 8)).

(** [/] on [i32] *)
Definition i32_div (c : cfg) (x y : Z) : bout Z :=
  if y =? 0 then Panic PDivZero else i32c c (Z.quot x y).

(** blend.rs:453-457 *)
Definition div8 (c : cfg) (a b : Z) : bout Z :=
  let* t := i32c c (a * 0xff) in
  let* h := i32_div c b 2 in
  let* n := i32c c (t + h) in
  let* q := i32_div c n b in
  Ok (as_u8 q).

(** blend.rs:459-467 *)
Definition blend8 (c : cfg) (back src opacity : Z) : bout Z :=
  let* a := i32c c (src - back) in
  let* m := i32c c (a * opacity) in
  let* t := i32c c (m + 0x80) in
  let* s := i32c c (Z.shiftr t 8 + t) in
  let* z := i32c c (back + Z.shiftr s 8) in
  Ok (as_u8 z).

(** one channel of [normal], blend.rs:480-482 *)
Definition normal_channel (c : cfg) (bk ft front_a res_a : Z) : bout Z :=
  let* d := i32c c (ft - bk) in
  let* m := i32c c (d * front_a) in
  let* q := i32_div c m res_a in
  i32c c (bk + q).

(** blend.rs:469-485 *)
Definition normal (c : cfg) (back front : px) (opacity : Z) : bout px :=
  if pa back =? 0 then
    let* alpha := mul8 c (pa front) opacity in
    Ok (mkpx (pr front) (pg front) (pb front) alpha)
  else if pa front =? 0 then Ok back
  else
    let* front_a := mul8 c (pa front) opacity in
    let* s := i32c c (front_a + pa back) in
    let* m := mul8 c (pa back) front_a in
    let* res_a := i32c c (s - m) in
    let* res_r := normal_channel c (pr back) (pr front) front_a res_a in
    let* res_g := normal_channel c (pg back) (pg front) front_a res_a in
    let* res_b := normal_channel c (pb back) (pb front) front_a res_a in
    px_from_i32 c res_r res_g res_b res_a.

(** blend.rs:487-512 *)
Definition merge (c : cfg) (back front : px) (opacity : Z) : bout px :=
  let* (res_r, res_g, res_b) :=
    (if pa back =? 0 then Ok (pr front, pg front, pb front)
     else if pa front =? 0 then Ok (pr back, pg back, pb back)
     else
       let* rr := blend8 c (pr back) (pr front) opacity in
       let* rg := blend8 c (pg back) (pg front) opacity in
       let* rb := blend8 c (pb back) (pb front) opacity in
       Ok (rr, rg, rb)) in
  let* res_a := blend8 c (pa back) (pa front) opacity in
  if res_a =? 0 then Ok (mkpx 0 0 0 0) else Ok (mkpx res_r res_g res_b res_a).

(** The type [BlendFn], blend.rs:108 *)
Definition blend_fn := px -> px -> Z -> bout px.

(** blend.rs:420-434 *)
Definition blender (c : cfg) (f : blend_fn) : blend_fn := fun back front opacity =>
  if negb (pa back =? 0) then
    let* norm := normal c back front opacity in
    let* blend := f back front opacity in
    let* normal_to_blend_merge := merge c norm blend (pa back) in
    let* src_total_alpha := mul8 c (pa front) opacity in
    let* composite_alpha := mul8 c (pa back) src_total_alpha in
    merge c normal_to_blend_merge blend composite_alpha
  else normal c back front opacity.

(** blend.rs:436-445 *)
Definition blend_channel (c : cfg) (f : Z -> Z -> bout Z) : blend_fn := fun back front opacity =>
  let* rr := f (pr back) (pr front) in
  let* gg := f (pg back) (pg front) in
  let* bb := f (pb back) (pb front) in
  normal c back (mkpx rr gg bb (pa front)) opacity.

(** ** The blend modes *)

(** blend.rs:138-148 *)
Definition addition_baseline (c : cfg) : blend_fn := fun back front opacity =>
  let* rr := i32c c (pr back + pr front) in
  let* gg := i32c c (pg back + pg front) in
  let* bb := i32c c (pb back + pb front) in
  let* f := px_from_i32 c (Z.min rr 255) (Z.min gg 255) (Z.min bb 255) (pa front) in
  normal c back f opacity.
(** blend.rs:135-137 *)
Definition addition c := blender c (addition_baseline c).

(** blend.rs:155-165 *)
Definition subtract_baseline (c : cfg) : blend_fn := fun back front opacity =>
  let* rr := i32c c (pr back - pr front) in
  let* gg := i32c c (pg back - pg front) in
  let* bb := i32c c (pb back - pb front) in
  let* f := px_from_i32 c (Z.max rr 0) (Z.max gg 0) (Z.max bb 0) (pa front) in
  normal c back f opacity.
(** blend.rs:151-153 *)
Definition subtract c := blender c (subtract_baseline c).

(** *** HSL helpers, blend.rs:514-646 *)

(** blend.rs:542-544 *)
Definition luminosity (x y z : f64) : f64 :=
  fadd (fadd (fmul (f_lit 3 10) x) (fmul (f_lit 59 100) y)) (fmul (f_lit 11 100) z).

(** blend.rs:538-540 *)
Definition saturation (x y z : f64) : f64 :=
  fsub (fmax x (fmax y z)) (fmin x (fmin y z)).

(** blend.rs:514-531 *)
Definition clip_color (x y z : f64) : f64 * f64 * f64 :=
  let lum := luminosity x y z in
  let mn := fmin x (fmin y z) in
  let mx := fmax x (fmax y z) in
  let '(x, y, z) :=
    if fltb mn (f_of_Z 0) then
      let f v := fadd lum (fdiv (fmul (fsub v lum) lum) (fsub lum mn)) in (f x, f y, f z)
    else (x, y, z) in
  if fltb (f_of_Z 1) mx then
    let f v := fadd lum (fdiv (fmul (fsub v lum) (fsub (f_of_Z 1) lum)) (fsub mx lum)) in
    (f x, f y, f z)
  else (x, y, z).

(** blend.rs:533-536 *)
Definition set_luminocity (x y z lum : f64) : f64 * f64 * f64 :=
  let delta := fsub lum (luminosity x y z) in
  clip_color (fadd x delta) (fadd y delta) (fadd z delta).

(** blend.rs:546-569 *)
Definition static_sort3 (x y z : f64) : nat * nat * nat :=
  let '(min0, mid0, max0) := ((x, 0%nat), (y, 1%nat), (z, 2%nat)) in
  let '(min1, mid1) := if fltb (fst min0) (fst mid0) then (min0, mid0) else (mid0, min0) in
  let '(min2, max1) := if fltb (fst min1) (fst max0) then (min1, max0) else (max0, min1) in
  let '(mid2, max2) := if fltb (fst mid1) (fst max1) then (mid1, max1) else (max1, mid1) in
  (snd min2, snd mid2, snd max2).

(** blend.rs:573-625 *)
Definition static_sort3_orig (x y z : f64) : nat * nat * nat :=
  let mn := if fltb x (fmin y z) then 0%nat else if fltb y z then 1%nat else 2%nat in
  let mx := if fltb (fmax y z) x then 0%nat else if fltb z y then 1%nat else 2%nat in
  let md := if fltb y x
            then if fltb z y then 1%nat else if fltb z x then 2%nat else 0%nat
            else if fltb z y then if fltb x z then 2%nat else 0%nat else 1%nat in
  (mn, md, mx).

(** blend.rs:627 *)
Definition ASEPRITE_SATURATION_BUG_COMPATIBLE : bool := true.

(** blend.rs:629-646; the array [col] has length 3, the indices are below 3. *)
Definition set_saturation (x y z sat : f64) : f64 * f64 * f64 :=
  let col := [x; y; z] in
  let at_ l i := nth i l S754_nan in
  let '(mn, md, mx) := if ASEPRITE_SATURATION_BUG_COMPATIBLE
                       then static_sort3_orig x y z else static_sort3 x y z in
  let col :=
    if fltb (at_ col mn) (at_ col mx) then
      let col := upd col md (fdiv (fmul (fsub (at_ col md) (at_ col mn)) sat)
                                  (fsub (at_ col mx) (at_ col mn))) in
      upd col mx sat
    else upd (upd col md (f_of_Z 0)) mx (f_of_Z 0) in
  let col := upd col mn (f_of_Z 0) in
  (at_ col 0%nat, at_ col 1%nat, at_ col 2%nat).

(** blend.rs:172-180; [r_f64] etc. (28-39) are the raw 0..255 values. *)
Definition hsl_hue_baseline (c : cfg) : blend_fn := fun back front opacity =>
  let sat := saturation (f_of_Z (pr back)) (f_of_Z (pg back)) (f_of_Z (pb back)) in
  let lum := luminosity (f_of_Z (pr back)) (f_of_Z (pg back)) (f_of_Z (pb back)) in
  let '(x, y, z) := set_saturation (f_of_Z (pr front)) (f_of_Z (pg front)) (f_of_Z (pb front)) sat in
  let '(x, y, z) := set_luminocity x y z lum in
  let* f := px_from_f64 c x y z (f_of_Z (pa front)) in
  normal c back f opacity.
(** blend.rs:168-170 *)
Definition hsl_hue c := blender c (hsl_hue_baseline c).

(** blend.rs:187-195 *)
Definition hsl_saturation_baseline (c : cfg) : blend_fn := fun back front opacity =>
  let sat := saturation (f_of_Z (pr front)) (f_of_Z (pg front)) (f_of_Z (pb front)) in
  let lum := luminosity (f_of_Z (pr back)) (f_of_Z (pg back)) (f_of_Z (pb back)) in
  let '(x, y, z) := set_saturation (f_of_Z (pr back)) (f_of_Z (pg back)) (f_of_Z (pb back)) sat in
  let '(x, y, z) := set_luminocity x y z lum in
  let* f := px_from_f64 c x y z (f_of_Z (pa front)) in
  normal c back f opacity.
(** blend.rs:183-185 *)
Definition hsl_saturation c := blender c (hsl_saturation_baseline c).

(** blend.rs:202-206 *)
Definition hsl_color_baseline (c : cfg) : blend_fn := fun back front opacity =>
  let lum := luminosity (f_of_Z (pr back)) (f_of_Z (pg back)) (f_of_Z (pb back)) in
  let '(x, y, z) := set_luminocity (f_of_Z (pr front)) (f_of_Z (pg front)) (f_of_Z (pb front)) lum in
  let* f := px_from_f64 c x y z (f_of_Z (pa front)) in
  normal c back f opacity.
(** blend.rs:198-200 *)
Definition hsl_color c := blender c (hsl_color_baseline c).

(** blend.rs:213-218 *)
Definition hsl_luminosity_baseline (c : cfg) : blend_fn := fun back front opacity =>
  let lum := luminosity (f_of_Z (pr front)) (f_of_Z (pg front)) (f_of_Z (pb front)) in
  let '(x, y, z) := set_luminocity (f_of_Z (pr back)) (f_of_Z (pg back)) (f_of_Z (pb back)) lum in
  let* f := px_from_f64 c x y z (f_of_Z (pa front)) in
  normal c back f opacity.
(** blend.rs:209-211 *)
Definition hsl_luminosity c := blender c (hsl_luminosity_baseline c).

(** blend.rs:230-233 *)
Definition blend_exclusion (c : cfg) (b s : Z) : bout Z :=
  let* t := mul8 c b s in
  let* u := i32c c (b + s) in
  let* v := i32c c (2 * t) in
  let* w := i32c c (u - v) in
  Ok (as_u8 w).
(** blend.rs:221-227 *)
Definition exclusion c := blender c (blend_channel c (blend_exclusion c)).

(** blend.rs:243-245 *)
Definition blend_difference (c : cfg) (b s : Z) : bout Z :=
  let* d := i32c c (b - s) in Ok (as_u8 (Z.abs d)).
(** blend.rs:235-241 *)
Definition difference c := blender c (blend_channel c (blend_difference c)).

(** blend.rs:255-263 *)
Definition blend_divide (c : cfg) (b s : Z) : bout Z :=
  if b =? 0 then Ok 0 else if s <=? b then Ok 255 else div8 c b s.
(** blend.rs:247-253 *)
Definition divide c := blender c (blend_channel c (blend_divide c)).

(** blend.rs:277-296 *)
Definition blend_soft_light (b s : Z) : Z :=
  let b := fdiv (f_of_Z b) (f_of_Z 255) in
  let s := fdiv (f_of_Z s) (f_of_Z 255) in
  let d := if fleb b (f_lit 1 4)
           then fmul (fadd (fmul (fsub (fmul (f_of_Z 16) b) (f_of_Z 12)) b) (f_of_Z 4)) b
           else fsqrt b in
  let r := if fleb s (f_lit 1 2)
           then fsub b (fmul (fmul (fsub (f_of_Z 1) (fmul (f_of_Z 2) s)) b) (fsub (f_of_Z 1) b))
           else fadd b (fmul (fsub (fmul (f_of_Z 2) s) (f_of_Z 1)) (fsub d b)) in
  u32_as_i32 (f_as_u32 (fadd (fmul r (f_of_Z 255)) (f_lit 1 2))).

(** blend.rs:269-275; the blue channel is computed from [back.b] twice. *)
Definition soft_light_baseline (c : cfg) : blend_fn := fun back front opacity =>
  let rr := blend_soft_light (pr back) (pr front) in
  let gg := blend_soft_light (pg back) (pg front) in
  let bb := blend_soft_light (pb back) (pb back) in
  let* f := px_from_i32 c rr gg bb (pa front) in
  normal c back f opacity.
(** blend.rs:265-267 *)
Definition soft_light c := blender c (soft_light_baseline c).

(** blend.rs:315-325; [255 - div8(..)] is a [u8] subtraction. *)
Definition blend_color_burn (c : cfg) (b s : Z) : bout Z :=
  if b =? 255 then Ok 255 else
  let* b := i32c c (255 - b) in
  if s <=? b then Ok 0 else
  let* d := div8 c b s in u8c c (255 - d).
(** blend.rs:307-313 *)
Definition color_burn c := blender c (blend_channel c (blend_color_burn c)).

(** blend.rs:335-346 *)
Definition blend_color_dodge (c : cfg) (b s : Z) : bout Z :=
  if b =? 0 then Ok 0 else
  let* s := i32c c (255 - s) in
  if s <=? b then Ok 255 else div8 c b s.
(** blend.rs:328-334 *)
Definition color_dodge c := blender c (blend_channel c (blend_color_dodge c)).

(** blend.rs:357-359 *)
Definition blend_lighten (b s : Z) : bout Z := Ok (as_u8 (Z.max b s)).
(** blend.rs:349-355 *)
Definition lighten c := blender c (blend_channel c blend_lighten).

(** blend.rs:370-372 *)
Definition blend_darken (b s : Z) : bout Z := Ok (as_u8 (Z.min b s)).
(** blend.rs:362-368 *)
Definition darken c := blender c (blend_channel c blend_darken).

(** blend.rs:402-404 *)
Definition blend_screen (c : cfg) (a b : Z) : bout Z :=
  let* s := i32c c (a + b) in
  let* m := mul8 c a b in
  let* d := i32c c (s - m) in
  Ok (as_u8 d).
(** blend.rs:393-399 *)
Definition screen c := blender c (blend_channel c (blend_screen c)).

(** blend.rs:414-416 *)
Definition blend_multiply (c : cfg) (a b : Z) : bout Z := mul8 c a b.
(** blend.rs:406-412 *)
Definition multiply c := blender c (blend_channel c (blend_multiply c)).

(** blend.rs:385-391; [<<] never overflows-checks the value: it wraps. *)
Definition blend_hard_light (c : cfg) (b s : Z) : bout Z :=
  let s2 := wrap (- 2 ^ 31) 32 (Z.shiftl s 1) in
  if s <? 128 then blend_multiply c b s2
  else let* s' := i32c c (s2 - 255) in blend_screen c b s'.
(** blend.rs:298-304 *)
Definition hard_light c := blender c (blend_channel c (blend_hard_light c)).

(** blend.rs:382-384 *)
Definition blend_overlay (c : cfg) (b s : Z) : bout Z := blend_hard_light c s b.
(** blend.rs:374-380 *)
Definition overlay c := blender c (blend_channel c (blend_overlay c)).

(** blend.rs:109-132 *)
Definition blend_mode_to_blend_fn (c : cfg) (m : blend_mode) : bout blend_fn :=
  match m with
  | BNormal => Ok (normal c)
  | BMultiply => Ok (multiply c)
  | BScreen => Ok (screen c)
  | BOverlay => Ok (overlay c)
  | BDarken => Ok (darken c)
  | BLighten => Ok (lighten c)
  | BColorDodge => Ok (color_dodge c)
  | BColorBurn => Ok (color_burn c)
  | BHardLight => Ok (hard_light c)
  | BSoftLight => Ok (soft_light c)
  | BDifference => Ok (difference c)
  | BExclusion => Ok (exclusion c)
  | BHue => Ok (hsl_hue c)
  | BSaturation => Ok (hsl_saturation c)
  | BColor => Ok (hsl_color c)
  | BLuminosity => Ok (hsl_luminosity c)
  | BAddition => Ok (addition c)
  | BSubtract => Ok (subtract c)
  | BDivide => Ok (divide c)
  | BUnknown _ => Panic PExplicit
  end.
