(** Model of src/binary/chunks/*.rs (except user_data.rs) and
    src/binary/image.rs. *)
From Verif.Model Require Export UserData Header.

(** ** image.rs:3-16 *)
Record image := { im_width : Z; im_height : Z; im_data : bytes; im_compressed : bool }.

(** ** chunks/old_palette.rs *)

(** old_palette.rs:21-25 *)
Record packet := { pk_entries_to_skip : Z; pk_colors : list rgb }.
(** old_palette.rs:17-19 *)
Record old_palette_chunk := { op_packets : list packet }.

(** old_palette.rs:33-49 *)
Definition parse_packet : parser packet := fun input =>
  let* (input, entries_to_skip) := byte input in
  let* (input, number_of_colors) := byte input in
  let number_of_colors := if number_of_colors =? 0 then 256 else number_of_colors in
  let* (input, colors) := count parse_rgb number_of_colors input in
  Ok (input, {| pk_entries_to_skip := entries_to_skip; pk_colors := colors |}).

(** old_palette.rs:27-31 *)
Definition parse_old_palette_chunk : parser old_palette_chunk := fun input =>
  let* (input, number_of_packets) := word input in
  let* (input, packets) := count parse_packet number_of_packets input in
  Ok (input, {| op_packets := packets |}).

(** ** chunks/palette.rs *)

(** palette.rs:20-24 *)
Record palette_entry := { pe_color : color; pe_name : option bytes }.
(** palette.rs:14-18; [indices: RangeInclusive<u8>] is kept as its two ends. *)
Record palette_chunk := { pc_first : Z; pc_last : Z; pc_entries : list palette_entry }.

(** palette.rs:26-30 *)
Definition PEF_HAS_NAME : Z := 0x1.

(** palette.rs:58-65 *)
Definition parse_palette_entry : parser palette_entry := fun input =>
  let* (input, flags) := word input in
  let flags := from_bits_truncate PEF_HAS_NAME flags in
  let* (input, color) := parse_color input in
  let* (input, name) := cond (contains flags PEF_HAS_NAME) parse_string input in
  Ok (input, {| pe_color := color; pe_name := name |}).

(** palette.rs:32-56 *)
Definition parse_palette_chunk (c : cfg) : parser palette_chunk := fun input =>
  let* (input, palette_size) := parse_dword_as_usize c input in
  let* (input, first_color_index) := parse_dword_as_u8 (EPalette PFirstOOB) input in
  let* (input, last_color_index) := parse_dword_as_u8 (EPalette PLastOOB) input in
  if last_color_index <? first_color_index then failure (EPalette PFirstGtLast) else
  let* (input, _) := take 8 input in
  let* (input, entries) := count parse_palette_entry palette_size input in
  Ok (input, {| pc_first := first_color_index; pc_last := last_color_index;
                pc_entries := entries |}).

(** ** chunks/layer.rs *)

(** layer.rs:24-35; the last three constants are written in hexadecimal in the
    source (0x16, 0x32, 0x64). *)
Definition LF_VISIBLE : Z := 0x1.
Definition LF_EDITABLE : Z := 0x2.
Definition LF_LOCK_MOVEMENT : Z := 0x4.
Definition LF_BACKGROUND : Z := 0x8.
Definition LF_PREFER_LINKED_CELS : Z := 0x16.
Definition LF_COLLAPSED : Z := 0x32.
Definition LF_REFERENCE : Z := 0x64.
Definition LF_ALL : Z :=
  fold_right Z.lor 0 [LF_VISIBLE; LF_EDITABLE; LF_LOCK_MOVEMENT; LF_BACKGROUND;
                      LF_PREFER_LINKED_CELS; LF_COLLAPSED; LF_REFERENCE].

(** layer.rs:11-22 *)
Record layer_chunk := {
  lc_flags : Z; lc_layer_type : layer_type; lc_child_level : Z;
  lc_blend_mode : blend_mode; lc_opacity : Z; lc_name : bytes;
  lc_tileset_index : option Z; lc_user_data : option user_data_chunk }.

(** layer.rs:56-84 *)
Definition parse_layer_chunk : parser layer_chunk := fun input =>
  let* (input, flags) := word input in
  let flags := from_bits_truncate LF_ALL flags in
  let* (input, lt) := word input in
  let lt := layer_type_from lt in
  let* (input, child_level) := word input in
  let* (input, _default_layer_width) := word input in
  let* (input, _default_layer_height) := word input in
  let* (input, bm) := word input in
  let bm := blend_mode_from bm in
  let* (input, opacity) := byte input in
  let* (input, _) := take 3 input in
  let* (input, name) := parse_string input in
  let* (input, tileset_index) :=
    cond (match lt with LTilemap => true | _ => false end) dword input in
  Ok (input, {| lc_flags := flags; lc_layer_type := lt; lc_child_level := child_level;
                lc_blend_mode := bm; lc_opacity := opacity; lc_name := name;
                lc_tileset_index := tileset_index; lc_user_data := None |}).

(** ** chunks/cel.rs *)

(** cel.rs:49-79 *)
Inductive cel_content :=
| CImage (im : image)
| CLinked (frame_position : Z)
| CTilemap (width height bits_per_tile bitmask_tile_id bitmask_x_flip
            bitmask_y_flip bitmask_diagonal_flip : Z) (data : bytes)
| CUnknown (cel_type : Z) (data : bytes).

(** cel.rs:11-27 *)
Record cel_chunk := {
  cc_layer_index : Z; cc_x : Z; cc_y : Z; cc_opacity : Z; cc_z_index : Z;
  cc_content : cel_content; cc_user_data : option user_data_chunk }.

(** cel.rs:90-139, the [match cel_type] computing the content *)
Definition parse_cel_content (ct : cel_type) (input : bytes) : out nom_err cel_content :=
  match ct with
  | CTRawImageData =>
      let* (input, width) := word input in
      let* (input, height) := word input in
      Ok (CImage {| im_width := width; im_height := height; im_data := input;
                    im_compressed := false |})
  | CTLinkedCel =>
      let* (_, frame_position) := word input in
      Ok (CLinked frame_position)
  | CTCompressedImage =>
      let* (input, width) := word input in
      let* (input, height) := word input in
      Ok (CImage {| im_width := width; im_height := height; im_data := input;
                    im_compressed := true |})
  | CTCompressedTilemap =>
      let* (input, width) := word input in
      let* (input, height) := word input in
      let* (input, bits_per_tile) := word input in
      let* (input, bitmask_tile_id) := dword input in
      let* (input, bitmask_y_flip) := dword input in
      let* (input, bitmask_x_flip) := dword input in
      let* (input, bitmask_diagonal_flip) := dword input in
      let* (input, _) := take 10 input in
      Ok (CTilemap width height bits_per_tile bitmask_tile_id bitmask_x_flip
                   bitmask_y_flip bitmask_diagonal_flip input)
  | CTUnknown cel_type => Ok (CUnknown cel_type input)
  end.

(** cel.rs:81-152.  The returned rest is [&input[input.len()..]], the empty
    slice. *)
Definition parse_cel_chunk : parser cel_chunk := fun input =>
  let* (input, layer_index) := word input in
  let* (input, x) := short input in
  let* (input, y) := short input in
  let* (input, opacity) := byte input in
  let* (input, ct) := word input in
  let ct := cel_type_from ct in
  let* (input, z_index) := short input in
  let* (input, _) := take 5 input in
  let* content := parse_cel_content ct input in
  Ok ([], {| cc_layer_index := layer_index; cc_x := x; cc_y := y; cc_opacity := opacity;
             cc_z_index := z_index; cc_content := content; cc_user_data := None |}).

(** ** chunks/cel_extra.rs *)

(** cel_extra.rs:18-23 *)
Definition CEF_PRECISE : Z := 0x1.
(** cel_extra.rs:8-16 *)
Record cel_extra_chunk := {
  ce_flags : Z; ce_precise_x_position : fixedp; ce_precise_y_position : fixedp;
  ce_width_of_the_cel : fixedp; ce_height_of_the_cel : fixedp; ce_future : bytes }.

(** cel_extra.rs:25-42 *)
Definition parse_cel_extra_chunk : parser cel_extra_chunk := fun input =>
  let* (input, flags) := dword input in
  let* (input, px) := fixed input in
  let* (input, py) := fixed input in
  let* (input, w) := fixed input in
  let* (input, h) := fixed input in
  Ok ([], {| ce_flags := from_bits_truncate CEF_PRECISE flags; ce_precise_x_position := px;
             ce_precise_y_position := py; ce_width_of_the_cel := w;
             ce_height_of_the_cel := h; ce_future := input |}).

(** ** chunks/color_profile.rs *)

(** color_profile.rs:28-32 *)
Definition CPF_FIXED_GAMMA : Z := 0x01.
(** color_profile.rs:34-40 *)
Inductive color_profile := CPNone | CPSrgb | CPEmbeddedICC (data : bytes) | CPUnknown (w : Z).
(** color_profile.rs:14-18 *)
Record color_profile_chunk := { cp_fixed_gamma : option fixedp; cp_profile : color_profile }.

(** color_profile.rs:42-69 *)
Definition parse_color_profile : parser color_profile_chunk := fun input =>
  let* (input, profile_type) := word input in
  let profile_type := color_profile_type_from profile_type in
  let* (input, flags) := word input in
  let flags := from_bits_truncate CPF_FIXED_GAMMA flags in
  let* (input, fixed_gamma) := fixed input in
  let* (input, _) := take 8 input in
  let* (input, profile) :=
    match profile_type with
    | CPTNone => Ok (input, CPNone)
    | CPTSrgb => Ok (input, CPSrgb)
    | CPTEmbeddedICC => pmap (flat_map_p dword take) CPEmbeddedICC input
    | CPTUnknown w => Ok (input, CPUnknown w)
    end in
  Ok (input, {| cp_fixed_gamma := if contains flags CPF_FIXED_GAMMA then Some fixed_gamma else None;
                cp_profile := profile |}).

(** ** chunks/external_files.rs *)

(** external_files.rs:16-24 *)
Record external_file := { ef_entry_id : Z; ef_file_type : external_file_type; ef_file_name : bytes }.
(** external_files.rs:11-14 *)
Record external_files_chunk := { efc_files : list external_file }.

(** external_files.rs:48-62 *)
Definition parse_external_file : parser external_file := fun input =>
  let* (input, entry_id) := dword input in
  let* (input, ft) := byte input in
  let ft := external_file_type_from ft in
  let* (input, _) := take 7 input in
  let* (input, file_name) := parse_string input in
  Ok (input, {| ef_entry_id := entry_id; ef_file_type := ft; ef_file_name := file_name |}).

(** external_files.rs:41-46 *)
Definition parse_external_files_chunk (c : cfg) : parser external_files_chunk := fun input =>
  let* (input, number_of_entries) := parse_dword_as_usize c input in
  let* (input, _) := take 8 input in
  let* (input, files) := count parse_external_file number_of_entries input in
  Ok (input, {| efc_files := files |}).

(** ** chunks/mask.rs *)

(** mask.rs:8-29 *)
Record mask_chunk := {
  mk_x : Z; mk_y : Z; mk_width : Z; mk_height : Z; mk_name : bytes; mk_data : bytes }.

(** mask.rs:31-56 *)
Definition parse_mask_chunk : parser mask_chunk := fun input =>
  let* (input, x) := short input in
  let* (input, y) := short input in
  let* (input, width) := word input in
  let* (input, height) := word input in
  let* (input, _) := take 8 input in
  let* (input, name) := parse_string input in
  Ok ([], {| mk_x := x; mk_y := y; mk_width := width; mk_height := height;
             mk_name := name; mk_data := input |}).

(** ** chunks/slice.rs *)

(** slice.rs:19-25 *)
Definition SF_NINE_PATCH : Z := 0x01.
Definition SF_PIVOT : Z := 0x02.
Definition SF_ALL : Z := Z.lor SF_NINE_PATCH SF_PIVOT.
(** slice.rs:38-44 *)
Record nine_patch := { np_x : Z; np_y : Z; np_width : Z; np_height : Z }.
(** slice.rs:46-50 *)
Record pivot := { pv_x : Z; pv_y : Z }.
(** slice.rs:27-36 *)
Record slice_key := {
  sk_frame_number : Z; sk_x : Z; sk_y : Z; sk_width : Z; sk_height : Z;
  sk_nine_patch : option nine_patch; sk_pivot : option pivot }.
(** slice.rs:10-17 *)
Record slice_chunk := {
  sc_name : bytes; sc_flags : Z; sc_slice_keys : list slice_key;
  sc_user_data : option user_data_chunk }.

(** slice.rs:94-108 *)
Definition parse_nine_patch : parser nine_patch := fun input =>
  let* (input, x) := long input in
  let* (input, y) := long input in
  let* (input, width) := dword input in
  let* (input, height) := dword input in
  Ok (input, {| np_x := x; np_y := y; np_width := width; np_height := height |}).

(** slice.rs:110-114 *)
Definition parse_pivot : parser pivot := fun input =>
  let* (input, x) := long input in
  let* (input, y) := long input in
  Ok (input, {| pv_x := x; pv_y := y |}).

(** slice.rs:71-92 *)
Definition parse_slice_key (flags : Z) : parser slice_key := fun input =>
  let* (input, frame_number) := dword input in
  let* (input, x) := long input in
  let* (input, y) := long input in
  let* (input, width) := dword input in
  let* (input, height) := dword input in
  let* (input, np) := cond (contains flags SF_NINE_PATCH) parse_nine_patch input in
  let* (input, pv) := cond (contains flags SF_PIVOT) parse_pivot input in
  Ok (input, {| sk_frame_number := frame_number; sk_x := x; sk_y := y; sk_width := width;
                sk_height := height; sk_nine_patch := np; sk_pivot := pv |}).

(** slice.rs:52-69 *)
Definition parse_slice_chunk (c : cfg) : parser slice_chunk := fun input =>
  let* (input, number_of_keys) := parse_dword_as_usize c input in
  let* (input, flags) := dword input in
  let flags := from_bits_truncate SF_ALL flags in
  let* (input, _) := dword input in
  let* (input, name) := parse_string input in
  let* (input, slice_keys) := count (parse_slice_key flags) number_of_keys input in
  Ok (input, {| sc_name := name; sc_flags := flags; sc_slice_keys := slice_keys;
                sc_user_data := None |}).

(** ** chunks/tags.rs *)

(** tags.rs:17-28; [frames: RangeInclusive<Word>] is kept as its two ends. *)
Record tag_ := {
  tg_from : Z; tg_to : Z; tg_animation_direction : animation_direction;
  tg_animation_repeat : Z; tg_color : bytes; tg_name : bytes;
  tg_user_data : option user_data_chunk }.
(** tags.rs:12-15 *)
Record tags_chunk := { tc_tags : list tag_ }.

(** tags.rs:52-79 *)
Definition parse_tag : parser tag_ := fun input =>
  let* (input, from_frame) := word input in
  let* (input, to_frame) := word input in
  if to_frame <? from_frame then failure (EInvalidFrameRange from_frame to_frame) else
  let* (input, ad) := byte input in
  let ad := animation_direction_from ad in
  let* (input, animation_repeat) := word input in
  let* (input, _) := take 6 input in
  let* (input, color) := take 3 input in
  let* (input, _) := byte input in
  let* (input, name) := parse_string input in
  Ok (input, {| tg_from := from_frame; tg_to := to_frame; tg_animation_direction := ad;
                tg_animation_repeat := animation_repeat; tg_color := color; tg_name := name;
                tg_user_data := None |}).

(** tags.rs:45-50 *)
Definition parse_tags_chunk : parser tags_chunk := fun input =>
  let* (input, number_of_tags) := word input in
  let* (input, _) := take 8 input in
  let* (input, tags) := count parse_tag number_of_tags input in
  Ok (input, {| tc_tags := tags |}).

(** ** chunks/tileset.rs *)

(** tileset.rs:56-77 *)
Definition TF_EXTERNAL_FILE : Z := 1.
Definition TF_TILES : Z := 2.
Definition TF_TILE_0_EMPTY : Z := 4.
Definition TF_XFLIP : Z := 8.
Definition TF_YFLIP : Z := 16.
Definition TF_DFLIP : Z := 32.
Definition TF_ALL : Z :=
  fold_right Z.lor 0 [TF_EXTERNAL_FILE; TF_TILES; TF_TILE_0_EMPTY; TF_XFLIP; TF_YFLIP; TF_DFLIP].
(** tileset.rs:40-47 *)
Record tileset_external_file := { te_external_file_id : Z; te_tileset_id : Z }.
(** tileset.rs:13-38; [TilesetTiles] (49-54) is kept as its data slice. *)
Record tileset_chunk := {
  ts_id : Z; ts_flags : Z; ts_number_of_tiles : Z; ts_width : Z; ts_height : Z;
  ts_base_index : Z; ts_name : bytes; ts_external_file : option tileset_external_file;
  ts_tiles : option bytes }.

(** tileset.rs:111-121 *)
Definition parse_tileset_external_file : parser tileset_external_file := fun input =>
  let* (input, external_file_id) := dword input in
  let* (input, tileset_id) := dword input in
  Ok (input, {| te_external_file_id := external_file_id; te_tileset_id := tileset_id |}).

(** tileset.rs:125-127 *)
Definition parse_tiles : parser bytes := flat_map_p dword take.

(** tileset.rs:79-109 *)
Definition parse_tileset_chunk : parser tileset_chunk := fun input =>
  let* (input, id) := dword input in
  let* (input, flags) := dword input in
  let flags := from_bits_truncate TF_ALL flags in
  let* (input, number_of_tiles) := dword input in
  let* (input, width) := word input in
  let* (input, height) := word input in
  let* (input, base_index) := short input in
  let* (input, _) := take 14 input in
  let* (input, name) := parse_string input in
  let* (input, ef) := cond (contains flags TF_EXTERNAL_FILE) parse_tileset_external_file input in
  let* (input, tiles) := cond (contains flags TF_TILES) parse_tiles input in
  Ok (input, {| ts_id := id; ts_flags := flags; ts_number_of_tiles := number_of_tiles;
                ts_width := width; ts_height := height; ts_base_index := base_index;
                ts_name := name; ts_external_file := ef; ts_tiles := tiles |}).
