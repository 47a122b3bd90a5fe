(** What a file looks like: the pixels of a frame, from the contents of the file. *)
From Verif.Model Require Import Loader.
From Verif.Spec Require Import Bytes LoaderSpec ImageSpec RenderSpec Composite Loads.

(** The picture that a cel shows: its own or, if it is linked to frame [p], that
    of frame [p] on the same layer. *)
Definition picture_of (fs : list frame) (cel : cel_chunk) (im : image) : Prop :=
  match cc_content cel with
  | CImage own => im = own
  | CLinked p => exists other, In (p, other) (file_cels fs) /\
      cc_layer_index other = cc_layer_index cel /\ cc_content other = CImage im
  | _ => False
  end.

(** Position [(x, y)] lies inside the picture [im] placed by the cel. *)
Definition spans (cel : cel_chunk) (im : image) (x y : Z) : Prop :=
  cc_x cel <= x < cc_x cel + im_width im /\ cc_y cel <= y < cc_y cel + im_height im.

Definition file_layers (f : file) : list layer := layers_of (f_layers f).
Definition file_width (f : file) : Z := h_width (f_header f).
Definition file_height (f : file) : Z := h_height (f_header f).

(** The cels drawn over the pixel [back] at [(x, y)], in this order. *)
Inductive looks (inflate : inflater) (f : file) (sel : layer_selection) (x y : Z) : list cel_chunk -> px -> px -> Prop :=
| looks_nil back : looks inflate f sel x y [] back back
| looks_hidden cel cels back r :
    on_layer (file_layers f) sel (cc_layer_index cel) = None ->
    looks inflate f sel x y cels back r -> looks inflate f sel x y (cel :: cels) back r
| looks_beside cel cels im back r :
    picture_of (f_frames f) cel im -> ~ spans cel im x y ->
    looks inflate f sel x y cels back r -> looks inflate f sel x y (cel :: cels) back r
| looks_drawn cel cels im image l front mid back r :
    on_layer (file_layers f) sel (cc_layer_index cel) = Some l ->
    picture_of (f_frames f) cel im -> spans cel im x y ->
    decoded inflate f im (repeat 0 (Z.to_nat (rgba_size im))) image ->
    pixel (im_width im) image (x - cc_x cel) (y - cc_y cel) = Some front ->
    composite (ly_blend_mode l) back front (ly_opacity l) mid ->
    looks inflate f sel x y cels mid r -> looks inflate f sel x y (cel :: cels) back r.

(** The sizes of the canvas and of the pictures fit the platform. *)
Definition file_fits (c : cfg) (f : file) : Prop :=
  file_width f * file_height f * 4 < 2 ^ usize_bits c /\
  forall k cel im, In (k, cel) (file_cels (f_frames f)) -> cc_content cel = CImage im ->
    rgba_size im < 2 ^ (usize_bits c - 1) /\ zlen (im_data im) * 4 < 2 ^ usize_bits c.

(** ** Pictures without half transparent pixels *)
(** The pixel of a cel's image at canvas position [(x, y)]. *)
Definition cel_pixel (inflate : inflater) (s : ase_file) (cel : frame_cel) (x y : Z) (p : px) : Prop :=
  covers cel x y = true /\ exists image, cel_image inflate s cel image /\
    pixel (fst (fc_size cel)) image (x - fst (fc_origin cel)) (y - snd (fc_origin cel)) = Some p.

(** Opaque layers of mode normal, and pixels that are opaque or transparent *)
Definition sharp (inflate : inflater) (s : ase_file) (sel : layer_selection) (cels : list frame_cel) : Prop :=
  forall cel l, In cel cels -> drawn s sel cel = Some l ->
    ly_blend_mode l = BNormal /\ ly_opacity l = 255 /\
    forall x y p, cel_pixel inflate s cel x y p -> pa p = 0 \/ pa p = 255.
