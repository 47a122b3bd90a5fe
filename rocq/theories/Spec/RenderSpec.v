(** What rendering a frame means, pixel by pixel. *)
From Verif.Model Require Import Loader.
From Verif.Spec Require Import Bytes ImageSpec BlendSpec.

(** Whether the selection contains layer number [k], [l]. *)
Definition chosen (sel : layer_selection) (k : Z) (l : layer) : bool :=
  match sel with
  | SelVisible => ly_visible l
  | SelAll => true
  | SelMask mask => match nth_error mask (Z.to_nat k) with Some b => b | None => false end
  end.

(** The layer a cel is drawn with: that of its layer index, unless it is a group
    or not selected. *)
Definition drawn (s : ase_file) (sel : layer_selection) (cel : frame_cel) : option layer :=
  match nth_error (af_layers s) (Z.to_nat (fc_layer_index cel)) with
  | Some l =>
      match ly_layer_type l with
      | LGroup => None
      | _ => if chosen sel (fc_layer_index cel) l then Some l else None
      end
  | None => None
  end.

(** The canvas position [(x, y)] lies inside the cel. *)
Definition covers (cel : frame_cel) (x y : Z) : bool :=
  let (ox, oy) := fc_origin cel in
  let (w, h) := fc_size cel in
  (ox <=? x) && (x <? ox + w) && (oy <=? y) && (y <? oy + h).

(** Pixel [(x, y)] of an RGBA image of width [w]. *)
Definition pixel (w : Z) (t : bytes) (x y : Z) : option px :=
  match quad t (Z.to_nat (y * w + x)) with
  | Some (r, g, b, a) => Some (mkpx r g b a)
  | None => None
  end.

(** The RGBA image of a cel.  Missing pixels are 0. *)
Definition cel_image (inflate : inflater) (s : ase_file) (cel : frame_cel) (image : bytes) : Prop :=
  exists im, nth_error (af_images s) (Z.to_nat (fc_image_index cel)) = Some im /\
    decoded inflate (af_file s) im (repeat 0 (Z.to_nat (rgba_size im))) image.

(** [composed .. cels back p]: drawing the cels over the pixel [back] at
    [(x, y)], in this order, gives [p]. *)
Inductive composed (c : cfg) (inflate : inflater) (s : ase_file) (sel : layer_selection) (x y : Z)
    : list frame_cel -> px -> px -> Prop :=
| composed_nil back : composed c inflate s sel x y [] back back
| composed_skip cel cels back p :
    drawn s sel cel = None \/ covers cel x y = false ->
    composed c inflate s sel x y cels back p ->
    composed c inflate s sel x y (cel :: cels) back p
| composed_draw cel cels back l image front f mid p :
    drawn s sel cel = Some l -> covers cel x y = true ->
    cel_image inflate s cel image ->
    pixel (fst (fc_size cel)) image (x - fst (fc_origin cel)) (y - snd (fc_origin cel)) = Some front ->
    blend_mode_to_blend_fn c (ly_blend_mode l) = Ok f ->
    f back front (ly_opacity l) = Ok mid ->
    composed c inflate s sel x y cels mid p ->
    composed c inflate s sel x y (cel :: cels) back p.

Definition canvas_width (s : ase_file) : Z := h_width (f_header (af_file s)).
Definition canvas_height (s : ase_file) : Z := h_height (f_header (af_file s)).
(** Bytes of the canvas. *)
Definition canvas_size (s : ase_file) : Z := canvas_width s * canvas_height s * 4.

(** The fields of the header that drawing depends on *)
Definition same_canvas (s s' : ase_file) : Prop :=
  canvas_width s = canvas_width s' /\ canvas_height s = canvas_height s' /\
  h_color_depth (f_header (af_file s)) = h_color_depth (f_header (af_file s')).

(** All sizes that rendering deals with fit: the canvas a [usize], the buffer of
    each image an [isize]. *)
Definition sprite_fits (c : cfg) (s : ase_file) : Prop :=
  canvas_size s < 2 ^ usize_bits c /\
  Forall (fun im => rgba_size im < 2 ^ (usize_bits c - 1) /\ zlen (im_data im) * 4 < 2 ^ usize_bits c)
         (af_images s).

(** Blend modes the crate knows. *)
Definition known_mode (m : blend_mode) : Prop := separable m \/ hsl m.

(** Everything that a frame shows: of each drawn cel the position, the size and
    the image, and the blend mode and opacity of its layer. *)
Definition shown (s : ase_file) (sel : layer_selection) (cels : list frame_cel) :=
  flat_map (fun cel => match drawn s sel cel with
                       | Some l => [(fc_origin cel, fc_size cel, nth_error (af_images s) (Z.to_nat (fc_image_index cel)),
                                     ly_blend_mode l, ly_opacity l)]
                       | None => []
                       end) cels.

(** Cels that agree except, perhaps, in opacity, z-index and user data. *)
Definition same_cel (x y : cel_chunk) : Prop :=
  cc_layer_index x = cc_layer_index y /\ cc_x x = cc_x y /\ cc_y x = cc_y y /\ cc_content x = cc_content y.
Definition same_slots : list (option cel_chunk) -> list (option cel_chunk) -> Prop :=
  Forall2 (fun a b => match a, b with
                      | Some x, Some y => same_cel x y
                      | None, None => True
                      | _, _ => False
                      end).

(** Layers that are drawn alike: of the same type, and if of type normal, with the same
    blend mode, opacity and visible flag (bit 0).  They may differ in name,
    child level and other flags, and groups and tilemaps in everything else. *)
Definition drawn_alike (a b : layer_chunk) : Prop :=
  lc_layer_type a = lc_layer_type b /\
  (lc_layer_type a = LNormal ->
     lc_blend_mode a = lc_blend_mode b /\ lc_opacity a = lc_opacity b /\
     Z.testbit (lc_flags a) 0 = Z.testbit (lc_flags b) 0).
