(** What is wrong with an image or a frame that cannot be decoded or drawn. *)
From Verif.Model Require Import Loader.
From Verif.Spec Require Import Bytes ImageSpec BlendSpec RenderSpec.

(** The decompressor, with room for [n] bytes, did not come to the end of the
    stream; it wrote [w]. *)
Definition unfinished (inflate : inflater) (im : image) (n : Z) (w : bytes) : Prop :=
  im_compressed im = true /\ exists st, inflate (im_data im) n = (st, w) /\ st <> ZStreamEnd.
(** Pixels that take [n] bytes are unfinished, or, if not compressed, of another length. *)
Definition unusable (inflate : inflater) (im : image) (n : Z) (e : load_image_error) : Prop :=
  (e = DecompressError /\ exists w, unfinished inflate im n w) \/
  (e = InvalidImageData /\ im_compressed im = false /\ zlen (im_data im) <> n).

(** What is wrong with an image, and what becomes of the area [old] that should
    receive it: only RGBA images are decompressed into it. *)
Definition image_wrong (inflate : inflater) (f : file) (im : image) (old : bytes)
    (e : load_image_error) (left : bytes) : Prop :=
  let area := im_width im * im_height im in
  match h_color_depth (f_header f) with
  | Rgba => e = DecompressError /\
      exists w, unfinished inflate im (4 * area) w /\ left = w ++ skipn (length w) old
  | Grayscale => left = old /\ unusable inflate im (2 * area) e
  | Indexed => left = old /\ unusable inflate im area e
  | DUnknown _ => left = old /\ e = UnsupportedColorDepth
  end.

(** The image of the cel is RGBA, not compressed, and of the wrong length. *)
Definition bad_length (s : ase_file) (cel : frame_cel) : Prop :=
  h_color_depth (f_header (af_file s)) = Rgba /\
  exists im, nth_error (af_images s) (Z.to_nat (fc_image_index cel)) = Some im /\
    im_compressed im = false /\ zlen (im_data im) <> rgba_size im.

(** The cels can be drawn over [target]. *)
Definition can_draw (c : cfg) (inflate : inflater) (s : ase_file) (sel : layer_selection)
    (cels : list frame_cel) (target : bytes) : Prop :=
  (forall cel l, In cel cels -> drawn s sel cel = Some l ->
     (exists image, cel_image inflate s cel image) /\ known_mode (ly_blend_mode l)) /\
  forall x y back, 0 <= x < canvas_width s -> 0 <= y < canvas_height s ->
    pixel (canvas_width s) target x y = Some back ->
    exists p, composed c inflate s sel x y cels back p.

(** Why [cel] of the layer [l] cannot be drawn after the cels [before], and the
    panic that follows. *)
Inductive hindered (c : cfg) (inflate : inflater) (s : ase_file) (sel : layer_selection)
    (target : bytes) (before : list frame_cel) (cel : frame_cel) (l : layer) : panic -> Prop :=
| h_length : bad_length s cel -> hindered c inflate s sel target before cel l PCopyLen
| h_image : ~ bad_length s cel -> (forall image, ~ cel_image inflate s cel image) ->
    hindered c inflate s sel target before cel l PUnwrap
| h_mode image : cel_image inflate s cel image -> ~ known_mode (ly_blend_mode l) ->
    hindered c inflate s sel target before cel l PExplicit
| h_pixel image x y back : cel_image inflate s cel image -> known_mode (ly_blend_mode l) ->
    0 <= x < canvas_width s -> 0 <= y < canvas_height s ->
    pixel (canvas_width s) target x y = Some back ->
    (forall p, ~ composed c inflate s sel x y (before ++ [cel]) back p) ->
    hindered c inflate s sel target before cel l PDebugAssert.
