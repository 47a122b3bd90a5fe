(** Sprites that need not come from [load]: all fields of [AsepriteFile] are
    public. *)
From Verif.Model Require Import Loader.
From Verif.Spec Require Import Bytes ImageSpec BlendSpec RenderSpec Refusals.

(** The fields that drawing depends on hold values of their Rust types. *)
Definition typed_color (x : color) : Prop :=
  is_byte (red x) /\ is_byte (green x) /\ is_byte (blue x) /\ is_byte (alpha x).
Definition typed_image (c : cfg) (im : image) : Prop :=
  0 <= im_width im < 2 ^ 16 /\ 0 <= im_height im < 2 ^ 16 /\ is_bytes (im_data im) /\ addressable c (im_data im).
Definition typed_cel (c : cfg) (cel : frame_cel) : Prop :=
  - 2 ^ 15 <= fst (fc_origin cel) < 2 ^ 15 /\ - 2 ^ 15 <= snd (fc_origin cel) < 2 ^ 15 /\
  0 <= fst (fc_size cel) < 2 ^ 16 /\ 0 <= snd (fc_size cel) < 2 ^ 16 /\
  0 <= fc_layer_index cel < 2 ^ usize_bits c /\ 0 <= fc_image_index cel < 2 ^ usize_bits c.
Definition typed (c : cfg) (s : ase_file) : Prop :=
  0 <= canvas_width s < 2 ^ 16 /\ 0 <= canvas_height s < 2 ^ 16 /\
  (forall p, f_palette (af_file s) = Some p -> zlen p = 256 /\ Forall typed_color p) /\
  Forall (typed_image c) (af_images s) /\
  Forall (fun l => is_byte (ly_opacity l)) (af_layers s) /\
  Forall (fun sf => Forall (typed_cel c) (sf_cels sf)) (af_frames s).

(** Bytes of the buffer that receives the image of a cel. *)
Definition room (cel : frame_cel) : Z := fst (fc_size cel) * snd (fc_size cel) * 4.

(** All sizes that drawing deals with fit: the canvas and the images a [usize],
    the buffers of the cels an [isize]. *)
Definition made_fits (c : cfg) (s : ase_file) : Prop :=
  canvas_size s < 2 ^ usize_bits c /\ Forall (sizes_fit c) (af_images s) /\
  Forall (fun sf => Forall (fun cel => room cel < 2 ^ (usize_bits c - 1)) (sf_cels sf)) (af_frames s).

(** What a cel shows: the decoded image, then zeros up to the size of the cel,
    read in lines of the width of the cel. *)
Definition cel_view (inflate : inflater) (s : ase_file) (cel : frame_cel) (view : bytes) : Prop :=
  exists im own, nth_error (af_images s) (Z.to_nat (fc_image_index cel)) = Some im /\
    rgba_size im <= room cel /\
    decoded inflate (af_file s) im (repeat 0 (Z.to_nat (rgba_size im))) own /\
    view = own ++ repeat 0 (Z.to_nat (room cel - rgba_size im)).

(** [stacked .. cels back p]: drawing the cels over the pixel [back] at
    [(x, y)], in this order, gives [p]. *)
Inductive stacked (c : cfg) (inflate : inflater) (s : ase_file) (sel : layer_selection) (x y : Z)
    : list frame_cel -> px -> px -> Prop :=
| stacked_nil back : stacked c inflate s sel x y [] back back
| stacked_skip cel cels back p :
    drawn s sel cel = None \/ covers cel x y = false ->
    stacked c inflate s sel x y cels back p ->
    stacked c inflate s sel x y (cel :: cels) back p
| stacked_draw cel cels back l view front f mid p :
    drawn s sel cel = Some l -> covers cel x y = true ->
    cel_view inflate s cel view ->
    pixel (fst (fc_size cel)) view (x - fst (fc_origin cel)) (y - snd (fc_origin cel)) = Some front ->
    blend_mode_to_blend_fn c (ly_blend_mode l) = Ok f ->
    f back front (ly_opacity l) = Ok mid ->
    stacked c inflate s sel x y cels mid p ->
    stacked c inflate s sel x y (cel :: cels) back p.

(** The cels can be drawn over [target]. *)
Definition can_stack (c : cfg) (inflate : inflater) (s : ase_file) (sel : layer_selection)
    (cels : list frame_cel) (target : bytes) : Prop :=
  (forall cel l, In cel cels -> drawn s sel cel = Some l ->
     (exists view, cel_view inflate s cel view) /\ known_mode (ly_blend_mode l)) /\
  forall x y back, 0 <= x < canvas_width s -> 0 <= y < canvas_height s ->
    pixel (canvas_width s) target x y = Some back ->
    exists p, stacked c inflate s sel x y cels back p.

(** The cel has no image. *)
Definition no_image (s : ase_file) (cel : frame_cel) : Prop :=
  nth_error (af_images s) (Z.to_nat (fc_image_index cel)) = None.
(** The image of the cel has room, and is RGBA, not compressed, and of the wrong length. *)
Definition bad_copy (s : ase_file) (cel : frame_cel) : Prop :=
  h_color_depth (f_header (af_file s)) = Rgba /\
  exists im, nth_error (af_images s) (Z.to_nat (fc_image_index cel)) = Some im /\
    rgba_size im <= room cel /\ im_compressed im = false /\ zlen (im_data im) <> rgba_size im.

(** Why [cel] of the layer [l] cannot be drawn after the cels [before], and the
    panic that follows. *)
Inductive stuck (c : cfg) (inflate : inflater) (s : ase_file) (sel : layer_selection)
    (target : bytes) (before : list frame_cel) (cel : frame_cel) (l : layer) : panic -> Prop :=
| s_index : no_image s cel -> stuck c inflate s sel target before cel l PIndex
| s_length : bad_copy s cel -> stuck c inflate s sel target before cel l PCopyLen
| s_image : ~ no_image s cel -> ~ bad_copy s cel -> (forall view, ~ cel_view inflate s cel view) ->
    stuck c inflate s sel target before cel l PUnwrap
| s_mode view : cel_view inflate s cel view -> ~ known_mode (ly_blend_mode l) ->
    stuck c inflate s sel target before cel l PExplicit
| s_pixel view x y back : cel_view inflate s cel view -> known_mode (ly_blend_mode l) ->
    0 <= x < canvas_width s -> 0 <= y < canvas_height s ->
    pixel (canvas_width s) target x y = Some back ->
    (forall p, ~ stacked c inflate s sel x y (before ++ [cel]) back p) ->
    stuck c inflate s sel target before cel l PDebugAssert.

(** What is wrong with an image: as for images of loaded files, except that an
    indexed sprite may lack the palette. *)
Definition made_wrong (inflate : inflater) (f : file) (im : image) (old : bytes)
    (e : load_image_error) (left : bytes) : Prop :=
  let area := im_width im * im_height im in
  match h_color_depth (f_header f), f_palette f with
  | Indexed, None => left = old /\
      ((e = DecompressError /\ exists w, unfinished inflate im area w) \/
       (e = MissingPalette /\ forall w, ~ unfinished inflate im area w))
  | _, _ => image_wrong inflate f im old e left
  end.

(** The sprite with other [visible] flags. *)
Definition with_visible (flags : list bool) (s : ase_file) : ase_file :=
  {| af_file := af_file s;
     af_layers := map (fun '(k, l) =>
        {| ly_name := ly_name l; ly_opacity := ly_opacity l; ly_blend_mode := ly_blend_mode l;
           ly_visible := nth k flags false; ly_layer_type := ly_layer_type l |})
        (combine (seq 0 (length (af_layers s))) (af_layers s));
     af_frames := af_frames s; af_tags := af_tags s; af_images := af_images s |}.
