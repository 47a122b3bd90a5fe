(** Sprites to be written and loaded again: a canvas, colours, layers, and for
    each frame at most one picture per layer. *)
From Verif.Model Require Import Loader.
From Verif.Spec Require Import Bytes Format Encode LoaderSpec ImageSpec Zlib.

(** Pixels are red, green, blue and alpha; or a grey value and alpha; or the
    number of a colour, one of which is transparent. *)
Inductive colours := TrueColour | Greys | Palette (pal : list color) (transparent : Z).
Definition depth (m : colours) : color_depth :=
  match m with TrueColour => Rgba | Greys => Grayscale | Palette _ _ => Indexed end.
Definition pixel_length (m : colours) : Z :=
  match m with TrueColour => 4 | Greys => 2 | Palette _ _ => 1 end.
Definition colour (pal : list color) (transparent k : Z) : color :=
  let x := nth (Z.to_nat k) pal black in
  {| red := red x; green := green x; blue := blue x; alpha := if k =? transparent then 0 else alpha x |}.
Definition as_rgba (m : colours) (pixels : bytes) : bytes :=
  match m with
  | TrueColour => pixels
  | Greys => gray_rgba pixels
  | Palette pal t => flat_map (fun k => let x := colour pal t k in [red x; green x; blue x; alpha x]) pixels
  end.

(** The pixels are given in blocks, which the compressed form keeps. *)
Record picture := {
  pic_origin : Z * Z; pic_size : Z * Z; pic_blocks : list bytes; pic_compressed : bool }.
Definition pic_pixels (p : picture) : bytes := concat (pic_blocks p).

Record drawing := {
  dr_size : Z * Z; dr_colours : colours; dr_layers : list layer; dr_frames : list (Z * list (option picture)) }.

(** ** As a file *)
Definition layer_to_chunk (l : layer) : layer_chunk :=
  {| lc_flags := if ly_visible l then 1 else 0; lc_layer_type := ly_layer_type l;
     lc_child_level := 0; lc_blend_mode := ly_blend_mode l; lc_opacity := ly_opacity l;
     lc_name := ly_name l; lc_tileset_index := None; lc_user_data := None |}.
Definition picture_image (p : picture) : image :=
  {| im_width := fst (pic_size p); im_height := snd (pic_size p);
     im_data := if pic_compressed p then zlib_stored (pic_blocks p) else pic_pixels p;
     im_compressed := pic_compressed p |}.
Definition picture_cel (k : Z) (p : picture) : cel_chunk :=
  {| cc_layer_index := k; cc_x := fst (pic_origin p); cc_y := snd (pic_origin p);
     cc_opacity := 255; cc_z_index := 0; cc_content := CImage (picture_image p);
     cc_user_data := None |}.

(** The pictures of a frame with their layers *)
Definition pictures (ps : list (option picture)) : list (Z * picture) :=
  flat_map (fun '(k, o) => match o with Some p => [(k, p)] | None => [] end) (numbered 0 ps).
Definition cel_chunks (ps : list (option picture)) : list chunk :=
  map (fun '(k, p) => ChCel (picture_cel k p)) (pictures ps).

Definition palette_chunks_of (m : colours) : list chunk :=
  match m with
  | Palette pal _ => [ChPalette {| pc_first := 0; pc_last := zlen pal - 1;
                                   pc_entries := map (fun x => {| pe_color := x; pe_name := None |}) pal |}]
  | _ => []
  end.

(** The palette and the layers come first in the first frame. *)
Definition drawing_raw (d : drawing) : raw_file :=
  {| rw_header := {| h_file_size := 0; h_frames := zlen (dr_frames d);
       h_width := fst (dr_size d); h_height := snd (dr_size d); h_color_depth := depth (dr_colours d);
       h_flags := 1; h_speed := 100;
       h_transparent_index := match dr_colours d with Palette _ t => t | _ => 0 end; h_color_count := 0;
       h_pixel_width := 1; h_pixel_height := 1; h_grid_x := 0; h_grid_y := 0; h_grid_width := 16;
       h_grid_height := 16 |};
     rw_frames :=
       match dr_frames d with
       | [] => []
       | (ms, ps) :: rest =>
           {| rf_duration := ms;
              rf_chunks := palette_chunks_of (dr_colours d) ++
                map (fun l => ChLayer (layer_to_chunk l)) (dr_layers d) ++ cel_chunks ps |} ::
           map (fun '(ms, ps) => {| rf_duration := ms; rf_chunks := cel_chunks ps |}) rest
       end |}.
Definition drawing_file (d : drawing) : bytes := enc_file (drawing_raw d).

(** ** What can be written *)
Definition wf_sprite_layer (l : layer) : Prop :=
  wf_string (ly_name l) /\ u8 (ly_opacity l) /\ wf_blend_mode (ly_blend_mode l) /\
  (ly_layer_type l = LNormal \/ ly_layer_type l = LGroup).
Definition wf_picture (m : colours) (p : picture) : Prop :=
  i16 (fst (pic_origin p)) /\ i16 (snd (pic_origin p)) /\ u16 (fst (pic_size p)) /\
  u16 (snd (pic_size p)) /\ storable (pic_blocks p) /\
  zlen (pic_pixels p) = fst (pic_size p) * snd (pic_size p) * pixel_length m.
Definition wf_colours (m : colours) : Prop :=
  match m with
  | Palette pal t => 1 <= zlen pal <= 256 /\ Forall wf_color pal /\ u8 t
  | _ => True
  end.
Definition wf_drawing (d : drawing) : Prop :=
  u16 (fst (dr_size d)) /\ u16 (snd (dr_size d)) /\ wf_colours (dr_colours d) /\
  Forall wf_sprite_layer (dr_layers d) /\ u16 (zlen (dr_layers d)) /\
  dr_frames d <> [] /\ u16 (zlen (dr_frames d)) /\
  Forall (fun '(ms, ps) => u16 ms /\ zlen ps = zlen (dr_layers d) /\
            Forall (fun o => match o with Some p => wf_picture (dr_colours d) p | None => True end) ps)
         (dr_frames d) /\
  zlen (drawing_file d) < 2 ^ 30.

(** The cel [fc] of the loaded sprite [s] shows the picture [p] of layer [k]:
    layer, position, size and, in any buffer that is large enough, the pixels. *)
Definition shows_picture (c : cfg) (inflate : inflater) (s : ase_file) (m : colours) (kp : Z * picture)
    (fc : frame_cel) : Prop :=
  let '(k, p) := kp in
  let rgba := as_rgba m (pic_pixels p) in
  fc_layer_index fc = k /\ fc_origin fc = pic_origin p /\ fc_size fc = pic_size p /\
  forall target, zlen rgba <= zlen target -> addressable c target ->
    load_image c inflate s (fc_image_index fc) target = Ok (rgba ++ skipn (length rgba) target).
