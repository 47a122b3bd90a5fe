(** Where a changed picture shows. *)
From Verif.Model Require Import Loader.
From Verif.Spec Require Import Bytes RenderSpec.

(** Bytes of a pixel *)
Definition depth_bytes (d : color_depth) : Z := match d with Rgba => 4 | Grayscale => 2 | _ => 1 end.
(** The pixels of [n] bytes in [d'] and [d] are the same but for those with [P]. *)
Definition differs_only (n : Z) (P : Z -> Prop) (d d' : bytes) : Prop :=
  zlen d' = zlen d /\ forall q, 0 <= q -> ~ P (q / n) -> nth_error d' (Z.to_nat q) = nth_error d (Z.to_nat q).
(** At [(x, y)] the frame shows a pixel with [P] of the image [j]. *)
Definition touched (s : ase_file) (sel : layer_selection) (sf : sframe) (j : nat) (P : Z -> Prop) (x y : Z) : Prop :=
  exists cel l, In cel (sf_cels sf) /\ drawn s sel cel = Some l /\ Z.to_nat (fc_image_index cel) = j /\ covers cel x y = true /\
    P ((y - snd (fc_origin cel)) * fst (fc_size cel) + (x - fst (fc_origin cel))).
