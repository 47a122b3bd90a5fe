(** Changing a file in place: what becomes of the loaded sprite when the data of an
    image or the position of a cel are overwritten. *)
From Verif.Model Require Import Loader.
From Verif.Spec Require Import Bytes Format.

Definition with_data (im : image) (d : bytes) : image :=
  {| im_width := im_width im; im_height := im_height im; im_data := d; im_compressed := im_compressed im |}.

(** Everything that does not depend on the cels is the same. *)
Definition same_outline (s s' : ase_file) : Prop :=
  f_header (af_file s') = f_header (af_file s) /\ f_palette (af_file s') = f_palette (af_file s) /\
  f_layers (af_file s') = f_layers (af_file s) /\ f_tags (af_file s') = f_tags (af_file s) /\
  f_slices (af_file s') = f_slices (af_file s) /\ f_user_data (af_file s') = f_user_data (af_file s) /\
  af_layers s' = af_layers s /\ af_tags s' = af_tags s.

(** The list with another element at position [j] *)
Definition set_at {A} (j : nat) (a : A) (l : list A) : list A := firstn j l ++ a :: skipn (S j) l.

Definition at_origin (p : Z * Z) (fc : frame_cel) : frame_cel :=
  {| fc_origin := p; fc_size := fc_size fc; fc_layer_index := fc_layer_index fc; fc_image_index := fc_image_index fc |}.
Definition with_cels (sf : sframe) (cels : list frame_cel) : sframe :=
  {| sf_duration := sf_duration sf; sf_origin := sf_origin sf; sf_cels := cels |}.

(** The layer with other flags, blend mode and opacity *)
Definition with_look (l : layer) (flags bm opacity : Z) : layer :=
  {| ly_name := ly_name l; ly_opacity := opacity; ly_blend_mode := blend_mode_code bm;
     ly_visible := Z.testbit flags 0; ly_layer_type := ly_layer_type l |}.
Definition with_duration (sf : sframe) (d : Z) : sframe :=
  {| sf_duration := d; sf_origin := sf_origin sf; sf_cels := sf_cels sf |}.
(** Everything but the layers, everything but the frames *)
Definition same_but_layers (s s' : ase_file) : Prop :=
  f_header (af_file s') = f_header (af_file s) /\ f_palette (af_file s') = f_palette (af_file s) /\
  f_frames (af_file s') = f_frames (af_file s) /\ f_tags (af_file s') = f_tags (af_file s) /\
  f_slices (af_file s') = f_slices (af_file s) /\ f_user_data (af_file s') = f_user_data (af_file s) /\
  af_frames s' = af_frames s /\ af_tags s' = af_tags s /\ af_images s' = af_images s.
