(** The byte layout of the aseprite format as this crate reads it.

    [L x e] means: the byte string [e] is an encoding of [x].  Layouts are
    written as explicit concatenations of little endian fields; they use the
    data types of the model, none of its parsers.  Ignored bytes are
    existentially quantified.  Where the crate deviates from the published
    format this is said in a comment and by a separate property. *)
From Verif.Model Require Import RawFile.
From Verif.Spec Require Import Bytes Utf8Spec.

Definition u8 := uint 1.   Definition u16 := uint 2.   Definition u32 := uint 4.
Definition i16 := sint 2.  Definition i32 := sint 4.

(** ** Combinators of layouts *)

(** A parser reads exactly the layout [L]: it succeeds with value [a] and rest
    [r] if and only if the input is an encoding of [a] followed by [r]. *)
Definition reads {A} (p : parser A) (L : A -> bytes -> Prop) : Prop :=
  forall i r a, is_bytes i -> (p i = Ok (r, a) <-> exists e, i = e ++ r /\ L a e).

(** A sequence of elements, one after the other. *)
Definition seq_l {A} (L : A -> bytes -> Prop) (l : list A) (e : bytes) : Prop :=
  exists parts, Forall2 L l parts /\ e = concat parts.

(** An optional field. *)
Definition opt_l {A} (L : A -> bytes -> Prop) (o : option A) (e : bytes) : Prop :=
  match o with Some a => L a e | None => e = [] end.

Definition is_some {A} (o : option A) : Prop := match o with Some _ => True | None => False end.

(** ** Scalars *)
Definition uint_l (n : nat) (v : Z) (e : bytes) : Prop := uint n v /\ e = le n v.
Definition sint_l (n : nat) (v : Z) (e : bytes) : Prop := sint n v /\ e = les n v.

(** WORD length, then the characters. *)
Definition string_l (s : bytes) (e : bytes) : Prop :=
  u16 (zlen s) /\ is_utf8 s /\ e = le 2 (zlen s) ++ s.

Definition point_l (p : point) (e : bytes) : Prop :=
  i32 (pt_x p) /\ i32 (pt_y p) /\ e = les 4 (pt_x p) ++ les 4 (pt_y p).
Definition size_l (s : size) (e : bytes) : Prop :=
  i32 (sz_width s) /\ i32 (sz_height s) /\ e = les 4 (sz_width s) ++ les 4 (sz_height s).
Definition rect_l (q : rect) (e : bytes) : Prop :=
  exists e1 e2, point_l (rc_point q) e1 /\ size_l (rc_size q) e2 /\ e = e1 ++ e2.
(** 16.16 fixed point: one 32 bit little endian number, i.e. the low word (the
    second component) comes first. *)
Definition fixed_l (f : fixedp) (e : bytes) : Prop :=
  u16 (fx_0 f) /\ u16 (fx_1 f) /\ e = le 4 (fx_0 f * 65536 + fx_1 f).
Definition color_l (k : color) (e : bytes) : Prop :=
  is_bytes e /\ e = [red k; green k; blue k; alpha k].
Definition rgb_l (k : rgb) (e : bytes) : Prop :=
  is_bytes e /\ e = [rgb_red k; rgb_green k; rgb_blue k].

(** ** Enumerations: row [w] of the table, [unknown w] past its end.

    The last row of the tables marked (strum) is the deviation of property
    C20: the first code without a name reads as [Unknown(0)]. *)
Definition table {A} (rows : list A) (unknown : Z -> A) (w : Z) : A :=
  nth (Z.to_nat w) rows (unknown w).

Definition blend_mode_code : Z -> blend_mode :=
  table [BNormal; BMultiply; BScreen; BOverlay; BDarken; BLighten; BColorDodge; BColorBurn;
         BHardLight; BSoftLight; BDifference; BExclusion; BHue; BSaturation; BColor;
         BLuminosity; BAddition; BSubtract; BDivide; BUnknown 0 (* strum *)] BUnknown.
Definition layer_type_code : Z -> layer_type := table [LNormal; LGroup; LTilemap] LUnknown.
Definition direction_code : Z -> animation_direction :=
  table [DForward; DReverse; DPingPong; DPingPongReverse; DirUnknown 0 (* strum *)] DirUnknown.
Definition external_file_code : Z -> external_file_type :=
  table [EFPalette; EFTileset; EFExtensionName; EFUnknown 0 (* strum *)] EFUnknown.
Definition color_depth_code (w : Z) : color_depth :=
  if w =? 32 then Rgba else if w =? 16 then Grayscale else if w =? 8 then Indexed
  else DUnknown w.

(** ** Header: 128 bytes *)
Definition header_l (h : header) (e : bytes) : Prop :=
  exists depth ignored1 ignored2,
    u32 (h_file_size h) /\ u16 (h_frames h) /\ u16 (h_width h) /\ u16 (h_height h) /\
    u16 depth /\ u32 (h_flags h) /\ u16 (h_speed h) /\ u8 (h_transparent_index h) /\
    u16 (h_color_count h) /\ u8 (h_pixel_width h) /\ u8 (h_pixel_height h) /\
    i16 (h_grid_x h) /\ i16 (h_grid_y h) /\ u16 (h_grid_width h) /\ u16 (h_grid_height h) /\
    zlen ignored1 = 3 /\ zlen ignored2 = 84 /\
    h_color_depth h = color_depth_code depth /\
    e = le 4 (h_file_size h) ++ le 2 0xA5E0 ++ le 2 (h_frames h) ++ le 2 (h_width h) ++
        le 2 (h_height h) ++ le 2 depth ++ le 4 (h_flags h) ++ le 2 (h_speed h) ++
        [0; 0; 0; 0; 0; 0; 0; 0] ++ le 1 (h_transparent_index h) ++ ignored1 ++
        le 2 (h_color_count h) ++ le 1 (h_pixel_width h) ++ le 1 (h_pixel_height h) ++
        les 2 (h_grid_x h) ++ les 2 (h_grid_y h) ++ le 2 (h_grid_width h) ++
        le 2 (h_grid_height h) ++ ignored2.

(** ** Chunk payloads *)

Definition packet_l (p : packet) (e : bytes) : Prop :=
  exists n body,
    u8 (pk_entries_to_skip p) /\ u8 n /\ zlen (pk_colors p) = (if n =? 0 then 256 else n) /\
    seq_l rgb_l (pk_colors p) body /\
    e = le 1 (pk_entries_to_skip p) ++ le 1 n ++ body.
Definition old_palette_l (p : old_palette_chunk) (e : bytes) : Prop :=
  exists body, u16 (zlen (op_packets p)) /\ seq_l packet_l (op_packets p) body /\
    e = le 2 (zlen (op_packets p)) ++ body.

Definition palette_entry_l (p : palette_entry) (e : bytes) : Prop :=
  exists flags e1 e2,
    u16 flags /\ color_l (pe_color p) e1 /\ opt_l string_l (pe_name p) e2 /\
    (is_some (pe_name p) <-> Z.testbit flags 0 = true) /\
    e = le 2 flags ++ e1 ++ e2.
(** Deviation (property C15): the number of entries is the first field, the
    total palette size, and not [last - first + 1]. *)
Definition palette_l (p : palette_chunk) (e : bytes) : Prop :=
  exists ignored body,
    u32 (zlen (pc_entries p)) /\ 0 <= pc_first p <= pc_last p /\ pc_last p <= 255 /\
    zlen ignored = 8 /\ seq_l palette_entry_l (pc_entries p) body /\
    e = le 4 (zlen (pc_entries p)) ++ le 4 (pc_first p) ++ le 4 (pc_last p) ++ ignored ++ body.

Definition layer_l (l : layer_chunk) (e : bytes) : Prop :=
  exists flags ty dw dh bm ignored e_name e_tileset,
    u16 flags /\ u16 ty /\ u16 (lc_child_level l) /\ u16 dw /\ u16 dh /\ u16 bm /\
    u8 (lc_opacity l) /\ zlen ignored = 3 /\
    string_l (lc_name l) e_name /\ opt_l (uint_l 4) (lc_tileset_index l) e_tileset /\
    lc_flags l = flags mod 128 /\ lc_layer_type l = layer_type_code ty /\
    lc_blend_mode l = blend_mode_code bm /\ (is_some (lc_tileset_index l) <-> ty = 2) /\
    lc_user_data l = None /\
    e = le 2 flags ++ le 2 ty ++ le 2 (lc_child_level l) ++ le 2 dw ++ le 2 dh ++ le 2 bm ++
        le 1 (lc_opacity l) ++ ignored ++ e_name ++ e_tileset.

(** Content of a cel of type [ty].  In the published format the mask for X flips
    comes before that for Y flips; see Spec/Published.v. *)
Definition cel_content_l (ty : Z) (x : cel_content) (e : bytes) : Prop :=
  match x with
  | CImage im =>
      (ty = 0 /\ im_compressed im = false \/ ty = 2 /\ im_compressed im = true) /\
      u16 (im_width im) /\ u16 (im_height im) /\
      e = le 2 (im_width im) ++ le 2 (im_height im) ++ im_data im
  | CLinked frame => ty = 1 /\ u16 frame /\ exists ignored, e = le 2 frame ++ ignored
  | CTilemap width height bits id xf yf df data =>
      ty = 3 /\ u16 width /\ u16 height /\ u16 bits /\ u32 id /\ u32 xf /\ u32 yf /\ u32 df /\
      exists ignored, zlen ignored = 10 /\
      e = le 2 width ++ le 2 height ++ le 2 bits ++ le 4 id ++ le 4 yf ++ le 4 xf ++ le 4 df ++
          ignored ++ data
  | CUnknown code data =>
      e = data /\ (ty = 4 /\ code = 0 (* strum *) \/ 5 <= ty /\ code = ty)
  end.
Definition cel_l (x : cel_chunk) (e : bytes) : Prop :=
  exists ty ignored body,
    u16 (cc_layer_index x) /\ i16 (cc_x x) /\ i16 (cc_y x) /\ u8 (cc_opacity x) /\ u16 ty /\
    i16 (cc_z_index x) /\ zlen ignored = 5 /\ cel_content_l ty (cc_content x) body /\
    cc_user_data x = None /\
    e = le 2 (cc_layer_index x) ++ les 2 (cc_x x) ++ les 2 (cc_y x) ++ le 1 (cc_opacity x) ++
        le 2 ty ++ les 2 (cc_z_index x) ++ ignored ++ body.

Definition cel_extra_l (x : cel_extra_chunk) (e : bytes) : Prop :=
  exists flags e1 e2 e3 e4,
    u32 flags /\ ce_flags x = flags mod 2 /\
    fixed_l (ce_precise_x_position x) e1 /\ fixed_l (ce_precise_y_position x) e2 /\
    fixed_l (ce_width_of_the_cel x) e3 /\ fixed_l (ce_height_of_the_cel x) e4 /\
    e = le 4 flags ++ e1 ++ e2 ++ e3 ++ e4 ++ ce_future x.

Definition color_profile_l (x : color_profile_chunk) (e : bytes) : Prop :=
  exists ty flags gamma e_gamma ignored e_icc,
    u16 ty /\ u16 flags /\ fixed_l gamma e_gamma /\ zlen ignored = 8 /\
    cp_fixed_gamma x = (if Z.testbit flags 0 then Some gamma else None) /\
    match cp_profile x with
    | CPNone => ty = 0 /\ e_icc = []
    | CPSrgb => ty = 1 /\ e_icc = []
    | CPEmbeddedICC data => ty = 2 /\ u32 (zlen data) /\ e_icc = le 4 (zlen data) ++ data
    | CPUnknown w => (ty = 3 /\ w = 0 (* strum *) \/ 4 <= ty /\ w = ty) /\ e_icc = []
    end /\
    e = le 2 ty ++ le 2 flags ++ e_gamma ++ ignored ++ e_icc.

Definition external_file_l (x : external_file) (e : bytes) : Prop :=
  exists ty ignored e_name,
    u32 (ef_entry_id x) /\ u8 ty /\ ef_file_type x = external_file_code ty /\
    zlen ignored = 7 /\ string_l (ef_file_name x) e_name /\
    e = le 4 (ef_entry_id x) ++ le 1 ty ++ ignored ++ e_name.
Definition external_files_l (x : external_files_chunk) (e : bytes) : Prop :=
  exists ignored body,
    u32 (zlen (efc_files x)) /\ zlen ignored = 8 /\ seq_l external_file_l (efc_files x) body /\
    e = le 4 (zlen (efc_files x)) ++ ignored ++ body.

Definition mask_l (x : mask_chunk) (e : bytes) : Prop :=
  exists ignored e_name,
    i16 (mk_x x) /\ i16 (mk_y x) /\ u16 (mk_width x) /\ u16 (mk_height x) /\
    zlen ignored = 8 /\ string_l (mk_name x) e_name /\
    e = les 2 (mk_x x) ++ les 2 (mk_y x) ++ le 2 (mk_width x) ++ le 2 (mk_height x) ++
        ignored ++ e_name ++ mk_data x.

Definition nine_patch_l (x : nine_patch) (e : bytes) : Prop :=
  i32 (np_x x) /\ i32 (np_y x) /\ u32 (np_width x) /\ u32 (np_height x) /\
  e = les 4 (np_x x) ++ les 4 (np_y x) ++ le 4 (np_width x) ++ le 4 (np_height x).
Definition pivot_l (x : pivot) (e : bytes) : Prop :=
  i32 (pv_x x) /\ i32 (pv_y x) /\ e = les 4 (pv_x x) ++ les 4 (pv_y x).
Definition slice_key_l (flags : Z) (k : slice_key) (e : bytes) : Prop :=
  exists e1 e2,
    u32 (sk_frame_number k) /\ i32 (sk_x k) /\ i32 (sk_y k) /\ u32 (sk_width k) /\
    u32 (sk_height k) /\
    opt_l nine_patch_l (sk_nine_patch k) e1 /\ (is_some (sk_nine_patch k) <-> Z.testbit flags 0 = true) /\
    opt_l pivot_l (sk_pivot k) e2 /\ (is_some (sk_pivot k) <-> Z.testbit flags 1 = true) /\
    e = le 4 (sk_frame_number k) ++ les 4 (sk_x k) ++ les 4 (sk_y k) ++ le 4 (sk_width k) ++
        le 4 (sk_height k) ++ e1 ++ e2.
Definition slice_l (x : slice_chunk) (e : bytes) : Prop :=
  exists flags ignored e_name body,
    u32 (zlen (sc_slice_keys x)) /\ u32 flags /\ zlen ignored = 4 /\
    string_l (sc_name x) e_name /\ seq_l (slice_key_l flags) (sc_slice_keys x) body /\
    sc_flags x = flags mod 4 /\ sc_user_data x = None /\
    e = le 4 (zlen (sc_slice_keys x)) ++ le 4 flags ++ ignored ++ e_name ++ body.

Definition tag_l (t : tag_) (e : bytes) : Prop :=
  exists dir ignored last e_name,
    u16 (tg_from t) /\ u16 (tg_to t) /\ tg_from t <= tg_to t /\ u8 dir /\
    tg_animation_direction t = direction_code dir /\ u16 (tg_animation_repeat t) /\
    zlen ignored = 6 /\ zlen (tg_color t) = 3 /\ u8 last /\ string_l (tg_name t) e_name /\
    tg_user_data t = None /\
    e = le 2 (tg_from t) ++ le 2 (tg_to t) ++ le 1 dir ++ le 2 (tg_animation_repeat t) ++
        ignored ++ tg_color t ++ le 1 last ++ e_name.
Definition tags_l (x : tags_chunk) (e : bytes) : Prop :=
  exists ignored body,
    u16 (zlen (tc_tags x)) /\ zlen ignored = 8 /\ seq_l tag_l (tc_tags x) body /\
    e = le 2 (zlen (tc_tags x)) ++ ignored ++ body.

Definition tileset_external_l (x : tileset_external_file) (e : bytes) : Prop :=
  u32 (te_external_file_id x) /\ u32 (te_tileset_id x) /\
  e = le 4 (te_external_file_id x) ++ le 4 (te_tileset_id x).
Definition blob_l (d : bytes) (e : bytes) : Prop :=
  u32 (zlen d) /\ e = le 4 (zlen d) ++ d.
Definition tileset_l (x : tileset_chunk) (e : bytes) : Prop :=
  exists flags ignored e_name e1 e2,
    u32 (ts_id x) /\ u32 flags /\ ts_flags x = flags mod 64 /\ u32 (ts_number_of_tiles x) /\
    u16 (ts_width x) /\ u16 (ts_height x) /\ i16 (ts_base_index x) /\ zlen ignored = 14 /\
    string_l (ts_name x) e_name /\
    opt_l tileset_external_l (ts_external_file x) e1 /\
    (is_some (ts_external_file x) <-> Z.testbit flags 0 = true) /\
    opt_l blob_l (ts_tiles x) e2 /\ (is_some (ts_tiles x) <-> Z.testbit flags 1 = true) /\
    e = le 4 (ts_id x) ++ le 4 flags ++ le 4 (ts_number_of_tiles x) ++ le 2 (ts_width x) ++
        le 2 (ts_height x) ++ les 2 (ts_base_index x) ++ ignored ++ e_name ++ e1 ++ e2.

(** ** User data *)
Definition bool_l (b : bool) (e : bytes) : Prop :=
  exists x, u8 x /\ b = negb (x =? 0) /\ e = le 1 x.

(** A value preceded by its type code; a vector; a property map; and sequences
    of these.  In the published format maps inside values have no key ([id]); see
    Spec/Published.v. *)
Inductive value_l : value -> bytes -> Prop :=
| VL_bool b e : bool_l b e -> value_l (VBool b) (le 2 0x01 ++ e)
| VL_int8 z e : sint_l 1 z e -> value_l (VInt8 z) (le 2 0x02 ++ e)
| VL_uint8 z e : uint_l 1 z e -> value_l (VUint8 z) (le 2 0x03 ++ e)
| VL_int16 z e : sint_l 2 z e -> value_l (VInt16 z) (le 2 0x04 ++ e)
| VL_uint16 z e : uint_l 2 z e -> value_l (VUint16 z) (le 2 0x05 ++ e)
| VL_int32 z e : sint_l 4 z e -> value_l (VInt32 z) (le 2 0x06 ++ e)
| VL_uint32 z e : uint_l 4 z e -> value_l (VUint32 z) (le 2 0x07 ++ e)
| VL_int64 z e : sint_l 8 z e -> value_l (VInt64 z) (le 2 0x08 ++ e)
| VL_uint64 z e : uint_l 8 z e -> value_l (VUint64 z) (le 2 0x09 ++ e)
| VL_fixed f e : fixed_l f e -> value_l (VFixed f) (le 2 0x0A ++ e)
| VL_float z e : uint_l 4 z e -> value_l (VFloat z) (le 2 0x0B ++ e)
| VL_double z e : uint_l 8 z e -> value_l (VDouble z) (le 2 0x0C ++ e)
| VL_string s e : string_l s e -> value_l (VString s) (le 2 0x0D ++ e)
| VL_point p e : point_l p e -> value_l (VPoint p) (le 2 0x0E ++ e)
| VL_size s e : size_l s e -> value_l (VSize s) (le 2 0x0F ++ e)
| VL_rect q e : rect_l q e -> value_l (VRect q) (le 2 0x10 ++ e)
| VL_vector v e : vector_l v e -> value_l (VVector v) (le 2 0x11 ++ e)
| VL_map m e : map_l m e -> value_l (VPropertiesMap m) (le 2 0x12 ++ e)
| VL_uuid z e : uint_l 16 z e -> value_l (VUuid z) (le 2 0x13 ++ e)
with vector_l : vector -> bytes -> Prop :=
| XL_mixed l e : u32 (zlen l) -> values_l l e ->
    vector_l (VecMixed l) (le 4 (zlen l) ++ le 2 0 ++ e)
| XL_bool l e : u32 (zlen l) -> seq_l bool_l l e ->
    vector_l (VecBool l) (le 4 (zlen l) ++ le 2 0x01 ++ e)
| XL_int8 l e : u32 (zlen l) -> seq_l (sint_l 1) l e ->
    vector_l (VecInt8 l) (le 4 (zlen l) ++ le 2 0x02 ++ e)
| XL_uint8 l e : u32 (zlen l) -> seq_l (uint_l 1) l e ->
    vector_l (VecUint8 l) (le 4 (zlen l) ++ le 2 0x03 ++ e)
| XL_int16 l e : u32 (zlen l) -> seq_l (sint_l 2) l e ->
    vector_l (VecInt16 l) (le 4 (zlen l) ++ le 2 0x04 ++ e)
| XL_uint16 l e : u32 (zlen l) -> seq_l (uint_l 2) l e ->
    vector_l (VecUint16 l) (le 4 (zlen l) ++ le 2 0x05 ++ e)
| XL_int32 l e : u32 (zlen l) -> seq_l (sint_l 4) l e ->
    vector_l (VecInt32 l) (le 4 (zlen l) ++ le 2 0x06 ++ e)
| XL_uint32 l e : u32 (zlen l) -> seq_l (uint_l 4) l e ->
    vector_l (VecUint32 l) (le 4 (zlen l) ++ le 2 0x07 ++ e)
| XL_int64 l e : u32 (zlen l) -> seq_l (sint_l 8) l e ->
    vector_l (VecInt64 l) (le 4 (zlen l) ++ le 2 0x08 ++ e)
| XL_uint64 l e : u32 (zlen l) -> seq_l (uint_l 8) l e ->
    vector_l (VecUint64 l) (le 4 (zlen l) ++ le 2 0x09 ++ e)
| XL_fixed l e : u32 (zlen l) -> seq_l fixed_l l e ->
    vector_l (VecFixed l) (le 4 (zlen l) ++ le 2 0x0A ++ e)
| XL_float l e : u32 (zlen l) -> seq_l (uint_l 4) l e ->
    vector_l (VecFloat l) (le 4 (zlen l) ++ le 2 0x0B ++ e)
| XL_double l e : u32 (zlen l) -> seq_l (uint_l 8) l e ->
    vector_l (VecDouble l) (le 4 (zlen l) ++ le 2 0x0C ++ e)
| XL_string l e : u32 (zlen l) -> seq_l string_l l e ->
    vector_l (VecString l) (le 4 (zlen l) ++ le 2 0x0D ++ e)
| XL_point l e : u32 (zlen l) -> seq_l point_l l e ->
    vector_l (VecPoint l) (le 4 (zlen l) ++ le 2 0x0E ++ e)
| XL_size l e : u32 (zlen l) -> seq_l size_l l e ->
    vector_l (VecSize l) (le 4 (zlen l) ++ le 2 0x0F ++ e)
| XL_rect l e : u32 (zlen l) -> seq_l rect_l l e ->
    vector_l (VecRect l) (le 4 (zlen l) ++ le 2 0x10 ++ e)
| XL_vector l e : u32 (zlen l) -> vectors_l l e ->
    vector_l (VecVector l) (le 4 (zlen l) ++ le 2 0x11 ++ e)
| XL_map l e : u32 (zlen l) -> maps_l l e ->
    vector_l (VecPropertiesMap l) (le 4 (zlen l) ++ le 2 0x12 ++ e)
| XL_uuid l e : u32 (zlen l) -> seq_l (uint_l 16) l e ->
    vector_l (VecUuid l) (le 4 (zlen l) ++ le 2 0x13 ++ e)
with map_l : properties_map -> bytes -> Prop :=
| ML id l e : u32 id -> u32 (zlen l) -> props_l l e ->
    map_l (PropMap l id) (le 4 id ++ le 4 (zlen l) ++ e)
with props_l : list property -> bytes -> Prop :=
| PL_nil : props_l [] []
| PL_cons name v l e1 e2 e3 : string_l name e1 -> value_l v e2 -> props_l l e3 ->
    props_l (Prop_ name v :: l) (e1 ++ e2 ++ e3)
with values_l : list value -> bytes -> Prop :=
| VSL_nil : values_l [] []
| VSL_cons v l e1 e2 : value_l v e1 -> values_l l e2 -> values_l (v :: l) (e1 ++ e2)
with vectors_l : list vector -> bytes -> Prop :=
| XSL_nil : vectors_l [] []
| XSL_cons v l e1 e2 : vector_l v e1 -> vectors_l l e2 -> vectors_l (v :: l) (e1 ++ e2)
with maps_l : list properties_map -> bytes -> Prop :=
| MSL_nil : maps_l [] []
| MSL_cons m l e1 e2 : map_l m e1 -> maps_l l e2 -> maps_l (m :: l) (e1 ++ e2).

(** The properties area: its total size in bytes (counting the two size
    fields), the number [n] of maps, and [n] maps, possibly followed by ignored
    bytes.  When the area does not start with [n] maps the crate keeps the error
    reported for the area instead of the maps; which error that is, is left to
    the parameter [map_error] (see [C18_map_error]: an error is kept exactly
    when the area does not start with [n] maps). *)
Section WithError.
Variable map_error : bytes -> Z -> nom_err -> Prop.

Definition properties_area_l (x : bytes * list properties_map + nom_err) (e : bytes) : Prop :=
  exists n area,
    u32 (zlen area + 8) /\ u32 n /\
    match x with
    | inl (rest, ms) => exists e', area = e' ++ rest /\ zlen ms = n /\ maps_l ms e'
    | inr err => map_error area n err
    end /\
    e = le 4 (zlen area + 8) ++ le 4 n ++ area.

Definition user_data_l (u : user_data_chunk) (e : bytes) : Prop :=
  exists flags e1 e2 e3,
    u32 flags /\
    opt_l string_l (ud_text u) e1 /\ (is_some (ud_text u) <-> Z.testbit flags 0 = true) /\
    opt_l color_l (ud_color u) e2 /\ (is_some (ud_color u) <-> Z.testbit flags 1 = true) /\
    opt_l properties_area_l (ud_properties_maps u) e3 /\
    (is_some (ud_properties_maps u) <-> Z.testbit flags 2 = true) /\
    e = le 4 flags ++ e1 ++ e2 ++ e3.

(** ** Chunks, frames, files *)

(** Numeric type codes of the chunks. *)
Definition chunk_code (x : chunk) : Z :=
  match x with
  | ChPalette0004 _ => 0x0004 | ChPalette0011 _ => 0x0011 | ChLayer _ => 0x2004
  | ChCel _ => 0x2005 | ChCelExtra _ => 0x2006 | ChColorProfile _ => 0x2007
  | ChExternalFiles _ => 0x2008 | ChMask _ => 0x2016 | ChPath => 0x2017
  | ChTags _ => 0x2018 | ChPalette _ => 0x2019 | ChUserData _ => 0x2020
  | ChSlice _ => 0x2022 | ChTileset _ => 0x2023 | ChUnsupported t => t
  end.
Definition known_codes : list Z :=
  [0x0004; 0x0011; 0x2004; 0x2005; 0x2006; 0x2007; 0x2008; 0x2016; 0x2017; 0x2018; 0x2019;
   0x2020; 0x2022; 0x2023].

(** [d] starts with an encoding; the bytes after it are ignored. *)
Definition prefix_l {A} (L : A -> bytes -> Prop) (x : A) (d : bytes) : Prop :=
  exists e ignored, L x e /\ d = e ++ ignored.

Definition payload_l (x : chunk) (d : bytes) : Prop :=
  match x with
  | ChPalette0004 p => prefix_l old_palette_l p d
  | ChPalette0011 p => prefix_l old_palette_l p d
  | ChLayer l => prefix_l layer_l l d
  | ChCel y => cel_l y d
  | ChCelExtra y => cel_extra_l y d
  | ChColorProfile y => prefix_l color_profile_l y d
  | ChExternalFiles y => prefix_l external_files_l y d
  | ChMask y => mask_l y d
  | ChPath => True
  | ChTags t => prefix_l tags_l t d
  | ChPalette p => prefix_l palette_l p d
  | ChUserData u => prefix_l user_data_l u d
  | ChSlice s => prefix_l slice_l s d
  | ChTileset t => prefix_l tileset_l t d
  | ChUnsupported t => u16 t /\ ~ In t known_codes
  end.

(** DWORD size of the whole chunk, WORD type, data. *)
Definition chunk_l (x : chunk) (e : bytes) : Prop :=
  exists d, u32 (zlen e) /\ payload_l x d /\ e = le 4 (zlen e) ++ le 2 (chunk_code x) ++ d.

(** The bytes of a chunk of type [code] with data [d]. *)
Definition encode_chunk (code : Z) (d : bytes) : bytes := le 4 (zlen d + 6) ++ le 2 code ++ d.

(** The chunk kinds in which all the data matters. *)
Definition takes_rest (x : chunk) : bool :=
  match x with ChCel _ | ChCelExtra _ | ChMask _ => true | _ => false end.

(** DWORD size of the whole frame, magic, old chunk count, duration, two ignored
    bytes, new chunk count, the chunks, ignored bytes. *)
Definition frame_l (f : raw_frame) (e : bytes) : Prop :=
  exists old new ignored1 body ignored2,
    u32 (zlen e) /\ u16 old /\ u16 (rf_duration f) /\ zlen ignored1 = 2 /\ u32 new /\
    zlen (rf_chunks f) = (if new =? 0 then old else new) /\
    seq_l chunk_l (rf_chunks f) body /\
    e = le 4 (zlen e) ++ le 2 0xF1FA ++ le 2 old ++ le 2 (rf_duration f) ++ ignored1 ++
        le 4 new ++ body ++ ignored2.

Definition raw_file_l (f : raw_file) (e : bytes) : Prop :=
  exists e1 e2, header_l (rw_header f) e1 /\ rw_frames f <> [] /\
    seq_l frame_l (rw_frames f) e2 /\ e = e1 ++ e2.
End WithError.

(** The error the crate keeps for an area that does not start with [n] maps:
    the one its map parser reports.  [C18_map_error] says when there is one. *)
Definition kept_error (c : cfg) (area : bytes) (n : Z) (err : nom_err) : Prop :=
  count (parse_properties_map c (S (length area))) n area = Err err.

(** Which error is kept left open: the area does not start with [n] maps. *)
Definition not_maps (area : bytes) (n : Z) (_ : nom_err) : Prop :=
  ~ exists e rest ms, area = e ++ rest /\ zlen ms = n /\ maps_l ms e.

(** The palette chunk of the published format: one entry for each colour index
    from [first] to [last]; the size field is independent of that. *)
Definition spec_palette_l (size : Z) (p : palette_chunk) (e : bytes) : Prop :=
  exists ignored body,
    u32 size /\ 0 <= pc_first p <= pc_last p /\ pc_last p <= 255 /\
    zlen (pc_entries p) = pc_last p - pc_first p + 1 /\
    zlen ignored = 8 /\ seq_l palette_entry_l (pc_entries p) body /\
    e = le 4 size ++ le 4 (pc_first p) ++ le 4 (pc_last p) ++ ignored ++ body.
