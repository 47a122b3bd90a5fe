(** Model of src/loader/mod.rs.

    Two external components are function parameters, never axioms:
    - [inflate], the zlib decompressor of the [flate2] crate;
    - [hasher], std's [DefaultHasher]. *)
From Verif.Model Require Export File Blend.

(** mod.rs:51-60 *)
Record frame_cel := {
  fc_origin : Z * Z; fc_size : Z * Z; fc_layer_index : Z; fc_image_index : Z }.
(** mod.rs:66-73 *)
Record sframe := { sf_duration : Z; sf_origin : Z * Z; sf_cels : list frame_cel }.
(** mod.rs:79-88; the range is the pair of its bounds. *)
Record stag := {
  stag_name : bytes; stag_range : Z * Z; stag_direction : animation_direction;
  stag_repeat : option Z }.
(** mod.rs:92-103 *)
Record layer := {
  ly_name : bytes; ly_opacity : Z; ly_blend_mode : blend_mode; ly_visible : bool;
  ly_layer_type : layer_type }.
(** mod.rs:109-116 *)
Inductive layer_selection := SelVisible | SelAll | SelMask (mask : list bool).
(** mod.rs:34-45 *)
Record ase_file := {
  af_file : file; af_layers : list layer; af_frames : list sframe;
  af_tags : list stag; af_images : list image }.

(** mod.rs:408-424.  The three messages of [Parse] are constructors; the
    variants never built by this module are left out. *)
Inductive load_sprite_error :=
| LParse (e : nom_err)
| LInvalidLinkedCel (frame layer : Z)
| LInvalidCel.

(** mod.rs:429-445 *)
Inductive load_image_error :=
| TargetBufferTooSmall | MissingPalette | UnsupportedColorDepth | DecompressError
| InvalidImageData.

(** mod.rs:119-125 *)
Definition is_selected (s : layer_selection) (layer_index : Z) (l : layer) : bool :=
  match s with
  | SelVisible => ly_visible l
  | SelAll => true
  | SelMask mask => nth (Z.to_nat layer_index) mask false
  end.

(** mod.rs:134-150 *)
Definition keep_layer (l : layer_chunk) : bool :=
  layer_type_eqb (lc_layer_type l) LNormal || layer_type_eqb (lc_layer_type l) LGroup.
Definition build_layer (l : layer_chunk) : layer :=
  {| ly_name := lc_name l; ly_opacity := lc_opacity l; ly_blend_mode := lc_blend_mode l;
     ly_visible := contains (lc_flags l) LF_VISIBLE; ly_layer_type := lc_layer_type l |}.
Definition build_layers (ls : list layer_chunk) : list layer :=
  map build_layer (filter keep_layer ls).

(** [.iter().enumerate()] *)
Definition enumerate {A} (l : list A) : list (Z * A) :=
  combine (map Z.of_nat (seq 0 (length l))) l.

(** [.filter_map(|x| x.as_ref())] *)
Fixpoint somes {A} (l : list (option A)) : list A :=
  match l with
  | [] => []
  | Some a :: l' => a :: somes l'
  | None :: l' => somes l'
  end.

(** HashMap<(usize, usize), usize> as an association list, latest entry first *)
Definition image_map := list ((Z * Z) * Z).
Fixpoint map_get (m : image_map) (k : Z * Z) : option Z :=
  match m with
  | [] => None
  | (k', v) :: m' =>
      if (fst k' =? fst k) && (snd k' =? snd k) then Some v else map_get m' k
  end.

(** mod.rs:155-163: body for one cel; state = (image_vec, image_map) *)
Definition collect_cel (frame_index : Z) (st : list image * image_map) (cel : cel_chunk)
    : list image * image_map :=
  match cc_content cel with
  | CImage im =>
      let '(v, m) := st in (v ++ [im], ((frame_index, cc_layer_index cel), zlen v) :: m)
  | _ => st
  end.
Definition collect_frame (st : list image * image_map) (f : Z * frame)
    : list image * image_map :=
  fold_left (collect_cel (fst f)) (somes (fr_cels (snd f))) st.
Definition collect_images (fs : list frame) : list image * image_map :=
  fold_left collect_frame (enumerate fs) ([], []).

(** mod.rs:168-179 *)
Definition build_tag (t : tag_) : stag :=
  {| stag_name := tg_name t; stag_range := (tg_from t, tg_to t);
     stag_direction := tg_animation_direction t;
     stag_repeat := if 0 <? tg_animation_repeat t then Some (tg_animation_repeat t) else None |}.

(** mod.rs:184-199 *)
Definition cel_image_index (m : image_map) (index : Z) (cel : cel_chunk)
    : out load_sprite_error Z :=
  match cc_content cel with
  | CImage _ =>
      match map_get m (index, cc_layer_index cel) with
      | Some i => Ok i
      | None => Panic PMapKey
      end
  | CLinked frame_position =>
      match map_get m (frame_position, cc_layer_index cel) with
      | Some i => Ok i
      | None => Err (LInvalidLinkedCel index (cc_layer_index cel))
      end
  | _ => Err LInvalidCel
  end.

(** mod.rs:183-208 *)
Definition build_cel (v : list image) (m : image_map) (index : Z) (cel : cel_chunk)
    : out load_sprite_error frame_cel :=
  let* image_index := cel_image_index m index cel in
  let* im := get_index v image_index in
  Ok {| fc_origin := (cc_x cel, cc_y cel); fc_size := (im_width im, im_height im);
        fc_layer_index := cc_layer_index cel; fc_image_index := image_index |}.

(** mod.rs:181-215 *)
Definition build_frame (v : list image) (m : image_map) (f : Z * frame)
    : out load_sprite_error sframe :=
  let* cels := map_out (build_cel v m (fst f)) (somes (fr_cels (snd f))) in
  Ok {| sf_duration := fr_duration (snd f); sf_origin := (0, 0); sf_cels := cels |}.

(** mod.rs:134-224: [load] after parsing *)
Definition build_sprite (f : file) : out load_sprite_error ase_file :=
  let '(v, m) := collect_images (f_frames f) in
  let* frames := map_out (build_frame v m) (enumerate (f_frames f)) in
  Ok {| af_file := f; af_layers := build_layers (f_layers f); af_frames := frames;
        af_tags := map build_tag (f_tags f); af_images := v |}.

(** mod.rs:130-224 *)
Definition load (c : cfg) (data : bytes) : out load_sprite_error ase_file :=
  let* f := map_err LParse (parse_file c data) in
  build_sprite f.

(** mod.rs:226-244, 399-401 *)
Definition api_size (s : ase_file) : Z * Z :=
  (h_width (f_header (af_file s)), h_height (f_header (af_file s))).
Definition api_tags (s : ase_file) : list stag := af_tags s.
Definition api_layers (s : ase_file) : list layer := af_layers s.
Definition api_frames (s : ase_file) : list sframe := af_frames s.
Definition api_image_count (s : ase_file) : Z := zlen (af_images s).
Definition api_slices (s : ase_file) : list slice_chunk := f_slices (af_file s).

(** mod.rs:250-252 *)
Definition select_layers (s : ase_file) (predicate : layer -> bool) : layer_selection :=
  SelMask (map predicate (af_layers s)).
(** mod.rs:259-261; string equality is equality of the UTF-8 bytes. *)
Definition select_layers_by_name (s : ase_file) (names : list bytes) : layer_selection :=
  select_layers s (fun l => existsb (fun n => list_eqb n (ly_name l)) names).

(** ** Decoding images

    These functions mutate a caller-supplied buffer.  The model returns the
    buffer contents after the call, also together with an error. *)
Definition buf_out := out (load_image_error * bytes) bytes.

(** flate2::Status, or an error *)
Inductive zstatus := ZOk | ZBufError | ZStreamEnd | ZError.
(** [Decompress::new(true).decompress(data, target, Finish)]: from the
    compressed data and the capacity of the output, the status and the bytes
    written to the front of the output.  [inflate_ok] (Spec) is the contract. *)
Definition inflater := bytes -> Z -> zstatus * bytes.

(** mod.rs:450-457 *)
Definition decompress (inflate : inflater) (data target : bytes) : buf_out :=
  let '(st, written) := inflate data (zlen target) in
  let target := written ++ skipn (length written) target in
  match st with
  | ZOk | ZBufError => Err (DecompressError, target)
  | ZStreamEnd => Ok target
  | ZError => Err (DecompressError, target)
  end.

(** [slice::chunks(2)] *)
Fixpoint chunks2 (l : bytes) : list bytes :=
  match l with
  | [] => []
  | [x] => [[x]]
  | x :: y :: l' => [x; y] :: chunks2 l'
  end.

(** four consecutive assignments [target[k] = ..; .. target[k + 3] = ..] *)
Definition set4 {E} (target : bytes) (k : Z) (v0 v1 v2 v3 : Z) : out E bytes :=
  let* target := set_index target k v0 in
  let* target := set_index target (k + 1) v1 in
  let* target := set_index target (k + 2) v2 in
  set_index target (k + 3) v3.

(** mod.rs:459-470.  [target.len()] fits a [usize], so once the length test
    passed [i * 4 + 3] does not overflow and is written without check. *)
Definition grayscale_to_rgba (c : cfg) (source target : bytes) : buf_out :=
  let* n := usizec c (zlen source * 2) in
  if negb (zlen target =? n) then Err (InvalidImageData, target) else
  fold_out (fun target '(i, ch) =>
    let* v := get_index ch 0 in
    let* w := get_index ch 1 in
    set4 target (i * 4) v v v w) (enumerate (chunks2 source)) target.

(** mod.rs:472-488 *)
Definition indexed_to_rgba (c : cfg) (source : bytes) (pal : palette) (target : bytes) : buf_out :=
  let* n := usizec c (zlen source * 4) in
  if negb (zlen target =? n) then Err (InvalidImageData, target) else
  fold_out (fun target '(i, px) =>
    let* color := get_index pal px in
    set4 target (i * 4) (red color) (green color) (blue color) (alpha color))
    (enumerate source) target.

(** [ok_or(LoadImageError::MissingPalette)?] *)
Definition need_palette (p : option palette) (target : bytes)
    : out (load_image_error * bytes) palette :=
  match p with Some p => Ok p | None => Err (MissingPalette, target) end.

(** Restores the bytes behind the sub-slice [&mut target[..n]]. *)
Definition with_tail (tail : bytes) (m : buf_out) : buf_out :=
  match m with
  | Ok t => Ok (t ++ tail)
  | Err (e, t) => Err (e, t ++ tail)
  | Panic p => Panic p
  end.

(** An error raised while working on a local buffer leaves [target] alone. *)
Definition local_buf {A} (target : bytes) (m : out (load_image_error * bytes) A)
    : out (load_image_error * bytes) A :=
  map_err (fun '(e, _) => (e, target)) m.

(** [vec![0u8; n]]: panics ("capacity overflow") above [isize::MAX] bytes.
    Running out of memory is not modelled. *)
Definition vec_zeroed {E} (c : cfg) (n : Z) : out E bytes :=
  if n <? 2 ^ (usize_bits c - 1) then Ok (repeat 0 (Z.to_nat n)) else Panic PCapacity.

(** mod.rs:361-395: the match on colour depth and compression; [target] has
    exactly [w * h * 4] bytes. *)
Definition decode_image (c : cfg) (inflate : inflater) (f : file) (im : image) (target : bytes)
    : buf_out :=
  match h_color_depth (f_header f), im_compressed im with
  | Rgba, false =>
      if zlen target =? zlen (im_data im) then Ok (im_data im) else Panic PCopyLen
  | Rgba, true => decompress inflate (im_data im) target
  | Grayscale, false => grayscale_to_rgba c (im_data im) target
  | Grayscale, true =>
      let* n := usizec c (im_width im * im_height im) in
      let* n := usizec c (n * 2) in
      let* buf := vec_zeroed c n in
      let* buf := local_buf target (decompress inflate (im_data im) buf) in
      grayscale_to_rgba c buf target
  | Indexed, false =>
      let* pal := need_palette (f_palette f) target in
      indexed_to_rgba c (im_data im) pal target
  | Indexed, true =>
      let* n := usizec c (im_width im * im_height im) in
      let* buf := vec_zeroed c n in
      let* buf := local_buf target (decompress inflate (im_data im) buf) in
      let* pal := need_palette (f_palette f) target in
      indexed_to_rgba c buf pal target
  | DUnknown _, _ => Err (UnsupportedColorDepth, target)
  end.

(** mod.rs:354-397 *)
Definition load_image (c : cfg) (inflate : inflater) (s : ase_file) (index : Z) (target : bytes)
    : buf_out :=
  let* im := get_index (af_images s) index in
  let* n := usizec c (im_width im * im_height im) in
  let* target_size := usizec c (n * 4) in
  if zlen target <? target_size then Err (TargetBufferTooSmall, target) else
  with_tail (skipn (Z.to_nat target_size) target)
    (decode_image c inflate (af_file s) im (firstn (Z.to_nat target_size) target)).

(** ** Rendering *)

(** [&v[a..b]] *)
Definition slice_range {E A} (l : list A) (a b : Z) : out E (list A) :=
  if (0 <=? a) && (a <=? b) && (b <=? zlen l)
  then Ok (firstn (Z.to_nat (b - a)) (skipn (Z.to_nat a) l))
  else Panic PIndex.

(** [u16::checked_add_signed(i16)] *)
Definition checked_add_signed16 (x d : Z) : option Z :=
  if (0 <=? x + d) && (x + d <? 65536) then Some (x + d) else None.

(** blend.rs:48-58 *)
Definition px_from_u8 {E} (c : cfg) (v : bytes) : out E px :=
  if debug c && negb (zlen v =? 4) then Panic PDebugAssert else
  let* v0 := get_index v 0 in
  let* v1 := get_index v 1 in
  let* v2 := get_index v 2 in
  let* v3 := get_index v 3 in
  Ok (mkpx v0 v1 v2 v3).

(** A function without error value inside one that has. *)
Definition lift {E A} (m : bout A) : out E A :=
  match m with
  | Ok x => Ok x
  | Err e => match e with end
  | Panic p => Panic p
  end.

(** mod.rs:318-346: one pixel *)
Definition render_pixel (c : cfg) (width height : Z) (cel : frame_cel) (cel_target : bytes)
    (f : blend_fn) (opacity : Z) (target : bytes) (y x : Z)
    : out (load_image_error * bytes) bytes :=
  match checked_add_signed16 x (fst (fc_origin cel)) with
  | None => Ok target
  | Some target_x =>
  if width <=? target_x then Ok target else
  match checked_add_signed16 y (snd (fc_origin cel)) with
  | None => Ok target
  | Some target_y =>
  if height <=? target_y then Ok target else
  let* m := usizec c (target_y * width) in
  let* target_index := usizec c (m + target_x) in
  let* m := usizec c (y * fst (fc_size cel)) in
  let* cel_index := usizec c (m + x) in
  let* ca := usizec c (cel_index * 4) in
  let* cb := usizec c (ca + 4) in
  let* cel_pixel := slice_range cel_target ca cb in
  let* ta := usizec c (target_index * 4) in
  let* tb := usizec c (ta + 4) in
  let* target_pixel := slice_range target ta tb in
  let* back := px_from_u8 c target_pixel in
  let* front := px_from_u8 c cel_pixel in
  let* o := lift (f back front opacity) in
  set4 target ta (pr o) (pg o) (pb o) (pa o)
  end end.

(** mod.rs:316-348: the two nested loops *)
Definition render_pixels (c : cfg) (width height : Z) (cel : frame_cel) (cel_target : bytes)
    (f : blend_fn) (opacity : Z) (target : bytes) : out (load_image_error * bytes) bytes :=
  fold_out (fun target y =>
    fold_out (fun target x =>
      render_pixel c width height cel cel_target f opacity target y x)
      (zrange (fst (fc_size cel))) target)
    (zrange (snd (fc_size cel))) target.

(** [Result::unwrap], keeping only the buffer *)
Definition unwrap {E F A} (m : out F A) : out E A :=
  match m with
  | Ok x => Ok x
  | Err _ => Panic PUnwrap
  | Panic p => Panic p
  end.

(** mod.rs:303-348: one cel.  [layer.get(i)] is [nth_error]; [layer_index] is
    non-negative. *)
Definition render_cel (c : cfg) (inflate : inflater) (s : ase_file) (sel : layer_selection)
    (target : bytes) (cel : frame_cel) : buf_out :=
  match nth_error (af_layers s) (Z.to_nat (fc_layer_index cel)) with
  | None => Ok target
  | Some l =>
    if layer_type_eqb (ly_layer_type l) LGroup || negb (is_selected sel (fc_layer_index cel) l)
    then Ok target
    else
      let* n := usizec c (fst (fc_size cel) * snd (fc_size cel)) in
      let* n := usizec c (n * 4) in
      let* cel_target := vec_zeroed c n in
      let* cel_target := unwrap (load_image c inflate s (fc_image_index cel) cel_target) in
      let* f := lift (blend_mode_to_blend_fn c (ly_blend_mode l)) in
      render_pixels c (h_width (f_header (af_file s))) (h_height (f_header (af_file s)))
                    cel cel_target f (ly_opacity l) target
  end.

(** mod.rs:287-351 *)
Definition render_frame (c : cfg) (inflate : inflater) (s : ase_file) (frame_index : Z)
    (target : bytes) (sel : layer_selection) : buf_out :=
  let* n := usizec c (h_width (f_header (af_file s)) * h_height (f_header (af_file s))) in
  let* target_size := usizec c (n * 4) in
  if zlen target <? target_size then Err (TargetBufferTooSmall, target) else
  let* fr := get_index (af_frames s) frame_index in
  fold_out (render_cel c inflate s sel) (sf_cels fr) target.

(** One primitive call on the [Hasher], mod.rs:277: hashing a tuple hashes its
    components in order. *)
Inductive hwrite := HUsize (z : Z) | HI16 (z : Z) | HU16 (z : Z).
Definition hash_cel (x : frame_cel) : list hwrite :=
  [HUsize (fc_image_index x); HUsize (fc_layer_index x);
   HI16 (fst (fc_origin x)); HI16 (snd (fc_origin x));
   HU16 (fst (fc_size x)); HU16 (snd (fc_size x))].

(** mod.rs:268-280; [hasher] maps the writes to a fresh [DefaultHasher] to the
    value of [finish]. *)
Definition combined_frame_image (c : cfg) (inflate : inflater) (hasher : list hwrite -> Z)
    (s : ase_file) (frame_index : Z) (target : bytes)
    : out (load_image_error * bytes) (bytes * Z) :=
  let* target := render_frame c inflate s frame_index target SelVisible in
  let* fr := get_index (af_frames s) frame_index in
  Ok (target, hasher (flat_map hash_cel (sf_cels fr))).
