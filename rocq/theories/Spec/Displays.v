(** What a file looks like by the published formats alone: [looks] and [appears]
    without a decompressor. *)
From Verif.Model Require Import Loader.
From Verif.Spec Require Import Bytes LoaderSpec ImageSpec RenderSpec BlendSpec Composite Loads Looks AllModes Zlib Deflate.

(** The [n] bytes of pixels in an image.  If a zlib stream holds fewer bytes, the
    others are 0. *)
Definition image_pixels (im : image) (n : Z) (px : bytes) : Prop :=
  if im_compressed im
  then exists stream rest w, im_data im = stream ++ rest /\ zlib_stream stream w /\ zlen w <= n /\
         px = w ++ repeat 0 (Z.to_nat (n - zlen w))
  else px = im_data im /\ zlen px = n.

(** The colours that they stand for *)
Definition image_colours (f : file) (im : image) (rgba : bytes) : Prop :=
  exists px, image_pixels im (pixel_bytes (h_color_depth (f_header f)) im) px /\
    match h_color_depth (f_header f) with
    | Rgba => rgba = px
    | Grayscale => rgba = gray_rgba px
    | Indexed => exists pal, f_palette f = Some pal /\ rgba = index_rgba pal px
    | DUnknown _ => False
    end.

(** The cels drawn over the pixel [back] at [(x, y)], in this order. *)
Inductive displays (f : file) (sel : layer_selection) (x y : Z) : list cel_chunk -> px -> px -> Prop :=
| displays_nil back : displays f sel x y [] back back
| displays_hidden cel cels back r :
    on_layer (file_layers f) sel (cc_layer_index cel) = None ->
    displays f sel x y cels back r -> displays f sel x y (cel :: cels) back r
| displays_beside cel cels im back r :
    picture_of (f_frames f) cel im -> ~ spans cel im x y ->
    displays f sel x y cels back r -> displays f sel x y (cel :: cels) back r
| displays_drawn cel cels im image l front mid back r :
    on_layer (file_layers f) sel (cc_layer_index cel) = Some l ->
    picture_of (f_frames f) cel im -> spans cel im x y -> image_colours f im image ->
    pixel (im_width im) image (x - cc_x cel) (y - cc_y cel) = Some front ->
    any_composite (ly_blend_mode l) back front (ly_opacity l) mid ->
    displays f sel x y cels mid r -> displays f sel x y (cel :: cels) back r.

(** All cels of the file show a picture; those of the frame [fr] that are drawn
    have colours and a blend mode that exists. *)
Definition presentable (f : file) (sel : layer_selection) (fr : frame) : Prop :=
  (forall j cel, In (j, cel) (file_cels (f_frames f)) -> exists im, picture_of (f_frames f) cel im) /\
  (forall cel l im, In cel (filled fr) -> on_layer (file_layers f) sel (cc_layer_index cel) = Some l ->
     picture_of (f_frames f) cel im -> known_mode (ly_blend_mode l) /\ exists image, image_colours f im image).
