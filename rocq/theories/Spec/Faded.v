(** Indexed files with other colours in their palettes. *)
From Verif.Model Require Import Loader.
From Verif.Spec Require Import Bytes.

Definition px_of (x : color) : px := mkpx (red x) (green x) (blue x) (alpha x).
(** The colours with the same number are related. *)
Definition palettes_rel (R : px -> px -> Prop) (pal pal' : palette) : Prop :=
  forall k x y, nth_error pal k = Some x -> nth_error pal' k = Some y -> R (px_of x) (px_of y).
(** The pixels may have any colours, but of the same alpha. *)
Definition equal_alpha (p q : px) : Prop := pa p = pa q.

(** Everything is the same but the palette; of the header only the parts that
    count for pictures (C70). *)
Definition same_but_palette (s s' : ase_file) : Prop :=
  api_size s' = api_size s /\ h_color_depth (f_header (af_file s')) = h_color_depth (f_header (af_file s)) /\
  api_layers s' = api_layers s /\ api_frames s' = api_frames s /\ api_tags s' = api_tags s /\ api_slices s' = api_slices s /\
  af_images s' = af_images s /\ f_user_data (af_file s') = f_user_data (af_file s).
