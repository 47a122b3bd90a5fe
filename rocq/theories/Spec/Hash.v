(** What the hash of [combined_frame_image] is taken of. *)
From Verif.Model Require Import Loader.
From Verif.Spec Require Import Bytes.

(** The description of a cel, with [usize] of [w] bytes: number of the image,
    number of the layer, origin, size. *)
Definition cel_record (w : nat) (x : frame_cel) : bytes :=
  le w (fc_image_index x) ++ le w (fc_layer_index x) ++
  les 2 (fst (fc_origin x)) ++ les 2 (snd (fc_origin x)) ++
  le 2 (fst (fc_size x)) ++ le 2 (snd (fc_size x)).
Definition frame_record (c : cfg) (sf : sframe) : bytes :=
  flat_map (cel_record (Z.to_nat (usize_bits c / 8))) (sf_cels sf).
