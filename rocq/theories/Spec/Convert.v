(** Sprites converted to another colour depth, mirrored and turned. *)
From Verif.Model Require Import Loader.
From Verif.Spec Require Import Bytes ImageSpec RenderSpec.

(** ** Colour depth *)
(** [im'] holds the pixels of the plain image [im] of a sprite with the parsed
    file [f] in true colour. *)
Definition true_colour (f : file) (im im' : image) : Prop :=
  im_width im' = im_width im /\ im_height im' = im_height im /\
  im_compressed im = false /\ im_compressed im' = false /\
  match h_color_depth (f_header f) with
  | Rgba => im_data im' = im_data im
  | Grayscale => zlen (im_data im) = 2 * (im_width im * im_height im) /\ im_data im' = gray_rgba (im_data im)
  | Indexed => exists pal, f_palette f = Some pal /\
      zlen (im_data im) = im_width im * im_height im /\ im_data im' = index_rgba pal (im_data im)
  | DUnknown _ => False
  end.

(** [s'] is [s] in true colour; whatever else the parsed file says. *)
Definition converted (s s' : ase_file) : Prop :=
  h_color_depth (f_header (af_file s')) = Rgba /\
  canvas_width s' = canvas_width s /\ canvas_height s' = canvas_height s /\
  af_layers s' = af_layers s /\ af_frames s' = af_frames s /\
  Forall2 (true_colour (af_file s)) (af_images s) (af_images s').

(** ** Mirrored and turned *)
(** Exchange left and right, top and bottom, or the two axes.  A rotation is two
    of these. *)
Inductive turn := FlipX | FlipY | Swap.
Definition turn_size (t : turn) (size : Z * Z) : Z * Z :=
  match t with Swap => (snd size, fst size) | _ => size end.
(** The new place of a position, ... *)
Definition turn_at (t : turn) (size : Z * Z) (x y : Z) : Z * Z :=
  match t with
  | FlipX => (fst size - 1 - x, y)
  | FlipY => (x, snd size - 1 - y)
  | Swap => (y, x)
  end.
(** ... and of a rectangle with the given upper left corner. *)
Definition turn_corner (t : turn) (canvas size corner : Z * Z) : Z * Z :=
  match t with
  | FlipX => (fst canvas - fst corner - fst size, snd corner)
  | FlipY => (fst corner, snd canvas - snd corner - snd size)
  | Swap => (snd corner, fst corner)
  end.

(** Two RGBA pictures *)
Definition turned_pixels (t : turn) (size : Z * Z) (d d' : bytes) : Prop :=
  forall x y, 0 <= x < fst size -> 0 <= y < snd size ->
    let (x', y') := turn_at t size x y in
    pixel (fst (turn_size t size)) d' x' y' = pixel (fst size) d x y.

Definition image_size (im : image) : Z * Z := (im_width im, im_height im).
Definition plain_rgba (im : image) : Prop := im_compressed im = false /\ zlen (im_data im) = rgba_size im.
Definition turned_image (t : turn) (im im' : image) : Prop :=
  plain_rgba im /\ plain_rgba im' /\ image_size im' = turn_size t (image_size im) /\
  turned_pixels t (image_size im) (im_data im) (im_data im').

Definition turned_cel (t : turn) (canvas : Z * Z) (cel cel' : frame_cel) : Prop :=
  fc_layer_index cel' = fc_layer_index cel /\ fc_image_index cel' = fc_image_index cel /\
  fc_size cel' = turn_size t (fc_size cel) /\
  fc_origin cel' = turn_corner t canvas (fc_size cel) (fc_origin cel).

Definition canvas (s : ase_file) : Z * Z := (canvas_width s, canvas_height s).
Definition turned (t : turn) (s s' : ase_file) : Prop :=
  h_color_depth (f_header (af_file s)) = Rgba /\ h_color_depth (f_header (af_file s')) = Rgba /\
  canvas s' = turn_size t (canvas s) /\ af_layers s' = af_layers s /\
  Forall2 (turned_image t) (af_images s) (af_images s') /\
  Forall2 (fun f f' => Forall2 (turned_cel t (canvas s)) (sf_cels f) (sf_cels f')) (af_frames s) (af_frames s').

(** The cels have the sizes of their images, as in every sprite that [load]
    returns (C28). *)
Definition cels_fit_images (s : ase_file) : Prop :=
  forall f cel im, In f (af_frames s) -> In cel (sf_cels f) ->
    nth_error (af_images s) (Z.to_nat (fc_image_index cel)) = Some im -> fc_size cel = image_size im.
