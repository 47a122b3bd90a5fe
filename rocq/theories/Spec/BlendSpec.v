(** What the blend modes should compute.  Channels and alpha are integers in
    0..255 that stand for [x / 255]. *)
From Verif.Model Require Import Blend.
From Verif.Spec Require Import Bytes.

Definition is_px (p : px) : Prop :=
  is_byte (pr p) /\ is_byte (pg p) /\ is_byte (pb p) /\ is_byte (pa p).

(** [q] is [n / d] rounded to the nearest integer, a half upwards. *)
Definition rounded (n d q : Z) : Prop := d * (2 * q - 1) <= 2 * n < d * (2 * q + 1).

(** [x <= y * sqrt z] for [0 <= y] and [0 <= z]. *)
Definition le_sqrt (x y z : Z) : Prop := x <= 0 \/ x * x <= y * y * z.

(** The soft light formula of the W3C compositing specification,
    [b - (1 - 2 s) b (1 - b)] for [s <= 1/2] and [b + (2 s - 1) (D(b) - b)]
    otherwise, with [D(b) = ((16 b - 12) b + 4) b] for [b <= 1/4] and
    [D(b) = sqrt b] otherwise, in steps of 1/255 and rounded. *)
Definition soft_light_value (b s q : Z) : Prop :=
  if 2 * s <=? 255 then rounded (255 * 255 * b - (255 - 2 * s) * b * (255 - b)) (255 * 255) q
  else if 4 * b <=? 255 then
    rounded (255 * 255 * 255 * b +
             (2 * s - 255) * (((16 * b - 12 * 255) * b + 4 * 255 * 255) * b - 255 * 255 * b))
            (255 * 255 * 255) q
  else (* [q - 1/2 <= b + (2 s - 255) (sqrt (255 b) - b) / 255 < q + 1/2] *)
    le_sqrt (255 * (2 * q - 1 - 2 * b) + 2 * (2 * s - 255) * b) (2 * (2 * s - 255)) (255 * b) /\
    ~ le_sqrt (255 * (2 * q + 1 - 2 * b) + 2 * (2 * s - 255) * b) (2 * (2 * s - 255)) (255 * b).

(** [q] is channel [b] of the backdrop blended with channel [s] of the source.
    The exclusion formula rounds the product before doubling it, as the comment
    in the code (blend.rs:229) says. *)
Definition formula (m : blend_mode) (b s q : Z) : Prop :=
  match m with
  | BNormal => q = s
  | BMultiply => rounded (b * s) 255 q
  | BScreen => rounded (255 * 255 - (255 - b) * (255 - s)) 255 q
  | BOverlay => if b <? 128 then rounded (2 * b * s) 255 q
                else rounded (255 * 255 - 2 * (255 - b) * (255 - s)) 255 q
  | BDarken => q = Z.min b s
  | BLighten => q = Z.max b s
  | BColorDodge => if b =? 0 then q = 0 else if 255 <=? b + s then q = 255
                   else rounded (255 * b) (255 - s) q
  | BColorBurn => if b =? 255 then q = 255 else if b + s <=? 255 then q = 0
                  else rounded (255 * (255 - b)) s (255 - q)
  | BHardLight => if s <? 128 then rounded (2 * b * s) 255 q
                  else rounded (255 * 255 - 2 * (255 - b) * (255 - s)) 255 q
  | BSoftLight => soft_light_value b s q
  | BDifference => q = Z.abs (b - s)
  | BExclusion => exists t, rounded (b * s) 255 t /\ q = b + s - 2 * t
  | BAddition => q = Z.min 255 (b + s)
  | BSubtract => q = Z.max 0 (b - s)
  | BDivide => if b =? 0 then q = 0 else if s <=? b then q = 255 else rounded (255 * b) s q
  | BHue | BSaturation | BColor | BLuminosity | BUnknown _ => False
  end.

(** The modes that work on each channel by itself. *)
Definition separable (m : blend_mode) : Prop :=
  match m with
  | BHue | BSaturation | BColor | BLuminosity | BUnknown _ => False
  | _ => True
  end.
(** The four others. *)
Definition hsl (m : blend_mode) : Prop :=
  match m with
  | BHue | BSaturation | BColor | BLuminosity => True
  | _ => False
  end.

(** [q] lies between [x] and [y]. *)
Definition between (x y q : Z) : Prop := Z.min x y <= q <= Z.max x y.
(** [q] lies in the range of the three values. *)
Definition hull (x y z q : Z) : Prop := Z.min x (Z.min y z) <= q <= Z.max x (Z.max y z).

(** Modes in which back and front may be swapped. *)
Definition symmetric_mode (m : blend_mode) : Prop :=
  match m with BMultiply | BScreen | BDarken | BLighten | BDifference | BExclusion => True | _ => False end.

(** The front value that changes nothing. *)
Definition neutral (m : blend_mode) : option Z :=
  match m with
  | BMultiply | BDarken | BColorBurn | BDivide => Some 255
  | BScreen | BLighten | BColorDodge | BDifference | BExclusion | BAddition | BSubtract => Some 0
  | _ => None
  end.
