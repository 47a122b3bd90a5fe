(** Cels and the stored data of their images. *)
From Verif.Model Require Import Loader.

(** Rounds for raw data of this length: one for every pixel that it has, and a
    second one if it has to be converted *)
Definition data_rounds (d : color_depth) (len : Z) : Z :=
  match d with
  | Rgba => len / 4
  | Grayscale => 2 * (len / 2)
  | Indexed => 2 * len
  | DUnknown _ => 0
  end.

Definition uncompressed_cel (s : ase_file) (cel : frame_cel) : Prop :=
  exists im, nth_error (af_images s) (Z.to_nat (fc_image_index cel)) = Some im /\ im_compressed im = false.
Definition data_bytes (s : ase_file) (cel : frame_cel) : Z :=
  match nth_error (af_images s) (Z.to_nat (fc_image_index cel)) with
  | Some im => zlen (im_data im)
  | None => 0
  end.
