(** What a decoded image is. *)
From Verif.Model Require Import Loader.
From Verif.Spec Require Import Bytes.

(** The contract of the decompressor: it writes at most as many bytes as the
    output has room for. *)
Definition inflate_ok (inflate : inflater) : Prop :=
  forall data n, 0 <= n -> zlen (snd (inflate data n)) <= n /\ is_bytes (snd (inflate data n)).

(** Number of bytes of the RGBA image. *)
Definition rgba_size (im : image) : Z := im_width im * im_height im * 4.

(** The stored pixels of an image: its data, decompressed into a buffer that
    held [old] if they are compressed. *)
Definition stored (inflate : inflater) (im : image) (old pixels : bytes) : Prop :=
  if im_compressed im
  then exists written, inflate (im_data im) (zlen old) = (ZStreamEnd, written) /\
         pixels = written ++ skipn (length written) old
  else pixels = im_data im.

(** Stored pixels as RGBA quadruples. *)
Fixpoint gray_rgba (l : bytes) : bytes :=
  match l with
  | v :: a :: l' => v :: v :: v :: a :: gray_rgba l'
  | _ => []
  end.
Definition black : color := {| red := 0; green := 0; blue := 0; alpha := 0 |}.
Definition index_rgba (pal : palette) (l : bytes) : bytes :=
  flat_map (fun k => let x := nth (Z.to_nat k) pal black in [red x; green x; blue x; alpha x]) l.

(** The RGBA image: [old] is what the image area of the target held before. *)
Definition decoded (inflate : inflater) (f : file) (im : image) (old rgba : bytes) : Prop :=
  let area := Z.to_nat (im_width im * im_height im) in
  match h_color_depth (f_header f) with
  | Rgba => stored inflate im old rgba /\ zlen rgba = rgba_size im
  | Grayscale => exists px, stored inflate im (repeat 0 (2 * area)) px /\
      zlen px = 2 * (im_width im * im_height im) /\ rgba = gray_rgba px
  | Indexed => exists px pal, stored inflate im (repeat 0 area) px /\ f_palette f = Some pal /\
      zlen px = im_width im * im_height im /\ rgba = index_rgba pal px
  | DUnknown _ => False
  end.

(** The four bytes of pixel [k]. *)
Definition quad (l : bytes) (k : nat) : option (Z * Z * Z * Z) :=
  match skipn (4 * k) l with
  | r :: g :: b :: a :: _ => Some (r, g, b, a)
  | _ => None
  end.

(** The sizes an image deals with fit a [usize]. *)
Definition sizes_fit (c : cfg) (im : image) : Prop :=
  rgba_size im < 2 ^ usize_bits c /\ zlen (im_data im) * 4 < 2 ^ usize_bits c.
