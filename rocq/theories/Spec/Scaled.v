(** Enlarged sprites: every pixel becomes a block of [n] x [m] pixels. *)
From Verif.Model Require Import Loader.
From Verif.Spec Require Import Bytes ImageSpec RenderSpec Convert.

Definition scaled_size (n m : Z) (size : Z * Z) : Z * Z := (n * fst size, m * snd size).

(** Two RGBA pictures *)
Definition scaled_pixels (n m : Z) (size : Z * Z) (d d' : bytes) : Prop :=
  forall x y i j, 0 <= x < fst size -> 0 <= y < snd size -> 0 <= i < n -> 0 <= j < m ->
    pixel (n * fst size) d' (n * x + i) (m * y + j) = pixel (fst size) d x y.

Definition scaled_image (n m : Z) (im im' : image) : Prop :=
  plain_rgba im /\ plain_rgba im' /\ image_size im' = scaled_size n m (image_size im) /\
  scaled_pixels n m (image_size im) (im_data im) (im_data im').

Definition scaled_cel (n m : Z) (cel cel' : frame_cel) : Prop :=
  fc_layer_index cel' = fc_layer_index cel /\ fc_image_index cel' = fc_image_index cel /\
  fc_size cel' = scaled_size n m (fc_size cel) /\ fc_origin cel' = scaled_size n m (fc_origin cel).

Definition scaled (n m : Z) (s s' : ase_file) : Prop :=
  h_color_depth (f_header (af_file s)) = Rgba /\ h_color_depth (f_header (af_file s')) = Rgba /\
  canvas s' = scaled_size n m (canvas s) /\ af_layers s' = af_layers s /\
  Forall2 (scaled_image n m) (af_images s) (af_images s') /\
  Forall2 (fun f f' => Forall2 (scaled_cel n m) (sf_cels f) (sf_cels f')) (af_frames s) (af_frames s').
