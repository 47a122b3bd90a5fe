(** The four non-separable blend modes of the W3C compositing specification
    (Compositing and Blending Level 1, 10.2), over the rationals. *)
From Coq Require Import QArith Qround Qminmax.
From Verif.Model Require Import Blend.
From Verif.Spec Require Import Bytes.
Local Open Scope Q_scope.

Definition rgb : Type := Q * Q * Q.
Definition rgb_of (p : px) : rgb := (inject_Z (pr p), inject_Z (pg p), inject_Z (pb p)).
Definition map3 (f : Q -> Q) (c : rgb) : rgb := let '(r, g, b) := c in (f r, f g, f b).
Definition min3 (c : rgb) : Q := let '(r, g, b) := c in Qmin r (Qmin g b).
Definition max3 (c : rgb) : Q := let '(r, g, b) := c in Qmax r (Qmax g b).
Definition Qltb (x y : Q) : bool := negb (Qle_bool y x).

(** Lum *)
Definition w3c_lum (c : rgb) : Q := let '(r, g, b) := c in (3#10) * r + (59#100) * g + (11#100) * b.
(** ClipColor; channels range from 0 to [top]. *)
Definition w3c_clip (top : Q) (c : rgb) : rgb :=
  let l := w3c_lum c in
  let n := min3 c in
  let x := max3 c in
  let c := if Qltb n 0 then map3 (fun v => l + (v - l) * l / (l - n)) c else c in
  if Qltb top x then map3 (fun v => l + (v - l) * (top - l) / (x - l)) c else c.
(** SetLum *)
Definition w3c_set_lum (top : Q) (c : rgb) (l : Q) : rgb :=
  w3c_clip top (map3 (fun v => v + (l - w3c_lum c)) c).
(** Sat *)
Definition w3c_sat (c : rgb) : Q := max3 c - min3 c.
(** SetSat: the largest channel becomes [s], the smallest 0, the other one is
    in proportion. *)
Definition w3c_set_sat (c : rgb) (s : Q) : rgb :=
  if Qltb (min3 c) (max3 c) then map3 (fun v => (v - min3 c) * s / (max3 c - min3 c)) c else (0, 0, 0).

(** SetSat as in Aseprite: with equal channels the same channel may be taken
    for two of the three, the third one is left as it was. *)
Definition ase_set_sat (c : rgb) (s : Q) : rgb :=
  let '(r, g, b) := c in
  let '(r', g', b') := w3c_set_sat c s in
  if Qeq_bool r g && Qle_bool g b then (r, g', b')
  else if Qeq_bool g b && Qltb b r then (r', g, b')
  else (r', g', b').

(** The colour that is given a new luminosity, and this luminosity. *)
Definition recoloured (set_sat : rgb -> Q -> rgb) (m : blend_mode) (cb cs : rgb) : rgb * Q :=
  match m with
  | BHue => (set_sat cs (w3c_sat cb), w3c_lum cb)
  | BSaturation => (set_sat cb (w3c_sat cs), w3c_lum cb)
  | BColor => (cs, w3c_lum cb)
  | _ => (cb, w3c_lum cs)
  end.
(** The blend function B(Cb, Cs) *)
Definition w3c_hsl (m : blend_mode) (back front : px) : rgb :=
  let '(c, l) := recoloured w3c_set_sat m (rgb_of back) (rgb_of front) in w3c_set_lum 255 c l.
Definition ase_hsl (m : blend_mode) (back front : px) : rgb :=
  let '(c, l) := recoloured ase_set_sat m (rgb_of back) (rgb_of front) in w3c_set_lum 255 c l.

(** [t] is [w] cut off. *)
Definition towards_zero (w : Q) : Z := if Qle_bool 0 w then Qfloor w else (- Qfloor (- w))%Z.
(** The byte of 255 times [x], a thousandth lost or gained before it is cut off. *)
Definition wrapped_byte (x : Q) (t : Z) : Prop :=
  exists w, - (1#1000) <= w - 255 * x <= 1#1000 /\ t = (towards_zero w mod 256)%Z.

(** The channels the crate arrives at: the channels 0..255 are clipped to
    [0, 1], multiplied by 255 and taken modulo 256.  With a grey colour the
    quotient of two zeros may come up, which is turned into 0. *)
Definition unscaled (m : blend_mode) (back front p : px) : Prop :=
  let '(c, l) := recoloured ase_set_sat m (rgb_of back) (rgb_of front) in
  if Qltb (min3 c) (max3 c)
  then let '(x, y, z) := w3c_set_lum 1 c l in
       wrapped_byte x (pr p) /\ wrapped_byte y (pg p) /\ wrapped_byte z (pb p)
  else pr p = pg p /\ pg p = pb p /\ (wrapped_byte (Qmin l 1) (pr p) \/ (1 <= l /\ pr p = 0%Z)).

(** Differs by more than [d] from the channel [t]. *)
Definition far (d x : Q) (t : Z) : Prop := d < x - inject_Z t \/ d < inject_Z t - x.
