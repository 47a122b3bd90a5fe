(** Indexed sprites with other palettes. *)
From Verif.Model Require Import Loader.
From Verif.Spec Require Import Bytes ImageSpec.

(** An indexed sprite with this palette; its pictures are plain and complete. *)
Definition indexed_with (s : ase_file) (pal : palette) : Prop :=
  h_color_depth (f_header (af_file s)) = Indexed /\ f_palette (af_file s) = Some pal /\
  Forall (fun im => im_compressed im = false /\ zlen (im_data im) = im_width im * im_height im) (af_images s).

(** Index [v] of the one palette and [v'] of the other stand for the same colour. *)
Definition same_colour (pal pal' : palette) (v v' : Z) : Prop :=
  exists x, nth_error pal (Z.to_nat v) = Some x /\ nth_error pal' (Z.to_nat v') = Some x.

(** Pictures of the same size with the same colours *)
Definition same_size (im im' : image) : Prop := im_width im' = im_width im /\ im_height im' = im_height im.
Definition same_colours (pal pal' : palette) (im im' : image) : Prop :=
  Forall2 (same_colour pal pal') (im_data im) (im_data im').
