(** A writer for the format: every well formed raw file as bytes.

    Ignored fields are written as zeros.  [wf_*] are the values that can be
    written: the ranges of the Rust types, the lengths that fit their length
    fields, and the fields whose presence is determined by flags. *)
From Verif.Model Require Import RawFile.
From Verif.Spec Require Import Bytes Utf8Spec Format.

Definition zeros (n : nat) : bytes := repeat 0 n.
Definition enc_opt {A} (f : A -> bytes) (o : option A) : bytes :=
  match o with Some a => f a | None => [] end.
Definition wf_opt {A} (P : A -> Prop) (o : option A) : Prop :=
  match o with Some a => P a | None => True end.

(** ** Scalars *)
Definition enc_string (s : bytes) : bytes := le 2 (zlen s) ++ s.
Definition wf_string (s : bytes) : Prop := u16 (zlen s) /\ is_utf8 s.
Definition enc_point (p : point) : bytes := les 4 (pt_x p) ++ les 4 (pt_y p).
Definition wf_point (p : point) : Prop := i32 (pt_x p) /\ i32 (pt_y p).
Definition enc_size (s : size) : bytes := les 4 (sz_width s) ++ les 4 (sz_height s).
Definition wf_size (s : size) : Prop := i32 (sz_width s) /\ i32 (sz_height s).
Definition enc_rect (r : rect) : bytes := enc_point (rc_point r) ++ enc_size (rc_size r).
Definition wf_rect (r : rect) : Prop := wf_point (rc_point r) /\ wf_size (rc_size r).
Definition enc_fixed (f : fixedp) : bytes := le 2 (fx_1 f) ++ le 2 (fx_0 f).
Definition wf_fixed (f : fixedp) : Prop := u16 (fx_0 f) /\ u16 (fx_1 f).
Definition enc_color (k : color) : bytes := [red k; green k; blue k; alpha k].
Definition wf_color (k : color) : Prop := is_bytes (enc_color k).
Definition enc_rgb (k : rgb) : bytes := [rgb_red k; rgb_green k; rgb_blue k].
Definition wf_rgb (k : rgb) : Prop := is_bytes (enc_rgb k).

(** ** Codes *)
Definition enc_blend_mode (m : blend_mode) : Z :=
  match m with
  | BNormal => 0 | BMultiply => 1 | BScreen => 2 | BOverlay => 3 | BDarken => 4 | BLighten => 5
  | BColorDodge => 6 | BColorBurn => 7 | BHardLight => 8 | BSoftLight => 9 | BDifference => 10
  | BExclusion => 11 | BHue => 12 | BSaturation => 13 | BColor => 14 | BLuminosity => 15
  | BAddition => 16 | BSubtract => 17 | BDivide => 18
  | BUnknown w => if w =? 0 then 19 else w
  end.
Definition wf_blend_mode (m : blend_mode) : Prop :=
  match m with BUnknown w => w = 0 \/ 20 <= w < 65536 | _ => True end.
Definition enc_layer_type (t : layer_type) : Z :=
  match t with LNormal => 0 | LGroup => 1 | LTilemap => 2 | LUnknown w => w end.
Definition wf_layer_type (t : layer_type) : Prop :=
  match t with LUnknown w => 3 <= w < 65536 | _ => True end.
Definition enc_direction (d : animation_direction) : Z :=
  match d with
  | DForward => 0 | DReverse => 1 | DPingPong => 2 | DPingPongReverse => 3
  | DirUnknown w => if w =? 0 then 4 else w
  end.
Definition wf_direction (d : animation_direction) : Prop :=
  match d with DirUnknown w => w = 0 \/ 5 <= w < 256 | _ => True end.
Definition enc_external_type (t : external_file_type) : Z :=
  match t with
  | EFPalette => 0 | EFTileset => 1 | EFExtensionName => 2
  | EFUnknown w => if w =? 0 then 3 else w
  end.
Definition wf_external_type (t : external_file_type) : Prop :=
  match t with EFUnknown w => w = 0 \/ 4 <= w < 256 | _ => True end.
Definition enc_depth (d : color_depth) : Z :=
  match d with Rgba => 32 | Grayscale => 16 | Indexed => 8 | DUnknown w => w end.
Definition wf_depth (d : color_depth) : Prop :=
  match d with DUnknown w => 0 <= w < 65536 /\ ~ In w [8; 16; 32] | _ => True end.

(** ** Header *)
Definition enc_header (h : header) : bytes :=
  le 4 (h_file_size h) ++ le 2 0xA5E0 ++ le 2 (h_frames h) ++ le 2 (h_width h) ++
  le 2 (h_height h) ++ le 2 (enc_depth (h_color_depth h)) ++ le 4 (h_flags h) ++
  le 2 (h_speed h) ++ zeros 8 ++ le 1 (h_transparent_index h) ++ zeros 3 ++
  le 2 (h_color_count h) ++ le 1 (h_pixel_width h) ++ le 1 (h_pixel_height h) ++
  les 2 (h_grid_x h) ++ les 2 (h_grid_y h) ++ le 2 (h_grid_width h) ++
  le 2 (h_grid_height h) ++ zeros 84.
Definition wf_header (h : header) : Prop :=
  u32 (h_file_size h) /\ u16 (h_frames h) /\ u16 (h_width h) /\ u16 (h_height h) /\
  wf_depth (h_color_depth h) /\ u32 (h_flags h) /\ u16 (h_speed h) /\
  u8 (h_transparent_index h) /\ u16 (h_color_count h) /\ u8 (h_pixel_width h) /\
  u8 (h_pixel_height h) /\ i16 (h_grid_x h) /\ i16 (h_grid_y h) /\ u16 (h_grid_width h) /\
  u16 (h_grid_height h).

(** ** Chunk payloads *)
Definition enc_packet (p : packet) : bytes :=
  le 1 (pk_entries_to_skip p) ++ le 1 (zlen (pk_colors p) mod 256) ++
  flat_map enc_rgb (pk_colors p).
Definition wf_packet (p : packet) : Prop :=
  u8 (pk_entries_to_skip p) /\ 1 <= zlen (pk_colors p) <= 256 /\ Forall wf_rgb (pk_colors p).
Definition enc_old_palette (p : old_palette_chunk) : bytes :=
  le 2 (zlen (op_packets p)) ++ flat_map enc_packet (op_packets p).
Definition wf_old_palette (p : old_palette_chunk) : Prop :=
  u16 (zlen (op_packets p)) /\ Forall wf_packet (op_packets p).

Definition enc_palette_entry (p : palette_entry) : bytes :=
  le 2 (match pe_name p with Some _ => 1 | None => 0 end) ++ enc_color (pe_color p) ++
  enc_opt enc_string (pe_name p).
Definition wf_palette_entry (p : palette_entry) : Prop :=
  wf_color (pe_color p) /\ wf_opt wf_string (pe_name p).
Definition enc_palette (p : palette_chunk) : bytes :=
  le 4 (zlen (pc_entries p)) ++ le 4 (pc_first p) ++ le 4 (pc_last p) ++ zeros 8 ++
  flat_map enc_palette_entry (pc_entries p).
Definition wf_palette (p : palette_chunk) : Prop :=
  u32 (zlen (pc_entries p)) /\ 0 <= pc_first p <= pc_last p /\ pc_last p <= 255 /\
  Forall wf_palette_entry (pc_entries p).

Definition enc_layer (l : layer_chunk) : bytes :=
  le 2 (lc_flags l) ++ le 2 (enc_layer_type (lc_layer_type l)) ++ le 2 (lc_child_level l) ++
  zeros 4 ++ le 2 (enc_blend_mode (lc_blend_mode l)) ++ le 1 (lc_opacity l) ++ zeros 3 ++
  enc_string (lc_name l) ++ enc_opt (le 4) (lc_tileset_index l).
Definition wf_layer (l : layer_chunk) : Prop :=
  0 <= lc_flags l < 128 /\ wf_layer_type (lc_layer_type l) /\ u16 (lc_child_level l) /\
  wf_blend_mode (lc_blend_mode l) /\ u8 (lc_opacity l) /\ wf_string (lc_name l) /\
  wf_opt u32 (lc_tileset_index l) /\
  (is_some (lc_tileset_index l) <-> lc_layer_type l = LTilemap) /\ lc_user_data l = None.

Definition cel_code (x : cel_content) : Z :=
  match x with
  | CImage im => if im_compressed im then 2 else 0
  | CLinked _ => 1
  | CTilemap _ _ _ _ _ _ _ _ => 3
  | CUnknown w _ => if w =? 0 then 4 else w
  end.
Definition enc_content (x : cel_content) : bytes :=
  match x with
  | CImage im => le 2 (im_width im) ++ le 2 (im_height im) ++ im_data im
  | CLinked frame => le 2 frame
  | CTilemap width height bits id xf yf df data =>
      le 2 width ++ le 2 height ++ le 2 bits ++ le 4 id ++ le 4 yf ++ le 4 xf ++ le 4 df ++
      zeros 10 ++ data
  | CUnknown _ data => data
  end.
Definition wf_content (x : cel_content) : Prop :=
  match x with
  | CImage im => u16 (im_width im) /\ u16 (im_height im) /\ is_bytes (im_data im)
  | CLinked frame => u16 frame
  | CTilemap width height bits id xf yf df data =>
      u16 width /\ u16 height /\ u16 bits /\ u32 id /\ u32 xf /\ u32 yf /\ u32 df /\
      is_bytes data
  | CUnknown w data => (w = 0 \/ 5 <= w < 65536) /\ is_bytes data
  end.
Definition enc_cel (x : cel_chunk) : bytes :=
  le 2 (cc_layer_index x) ++ les 2 (cc_x x) ++ les 2 (cc_y x) ++ le 1 (cc_opacity x) ++
  le 2 (cel_code (cc_content x)) ++ les 2 (cc_z_index x) ++ zeros 5 ++
  enc_content (cc_content x).
Definition wf_cel (x : cel_chunk) : Prop :=
  u16 (cc_layer_index x) /\ i16 (cc_x x) /\ i16 (cc_y x) /\ u8 (cc_opacity x) /\
  i16 (cc_z_index x) /\ wf_content (cc_content x) /\ cc_user_data x = None.

Definition enc_cel_extra (x : cel_extra_chunk) : bytes :=
  le 4 (ce_flags x) ++ enc_fixed (ce_precise_x_position x) ++
  enc_fixed (ce_precise_y_position x) ++ enc_fixed (ce_width_of_the_cel x) ++
  enc_fixed (ce_height_of_the_cel x) ++ ce_future x.
Definition wf_cel_extra (x : cel_extra_chunk) : Prop :=
  0 <= ce_flags x < 2 /\ wf_fixed (ce_precise_x_position x) /\
  wf_fixed (ce_precise_y_position x) /\ wf_fixed (ce_width_of_the_cel x) /\
  wf_fixed (ce_height_of_the_cel x) /\ is_bytes (ce_future x).

Definition enc_color_profile (x : color_profile_chunk) : bytes :=
  le 2 (match cp_profile x with
        | CPNone => 0 | CPSrgb => 1 | CPEmbeddedICC _ => 2
        | CPUnknown w => if w =? 0 then 3 else w
        end) ++
  match cp_fixed_gamma x with
  | Some gamma => le 2 1 ++ enc_fixed gamma
  | None => le 2 0 ++ zeros 4
  end ++ zeros 8 ++
  match cp_profile x with CPEmbeddedICC data => le 4 (zlen data) ++ data | _ => [] end.
Definition wf_color_profile (x : color_profile_chunk) : Prop :=
  wf_opt wf_fixed (cp_fixed_gamma x) /\
  match cp_profile x with
  | CPEmbeddedICC data => u32 (zlen data) /\ is_bytes data
  | CPUnknown w => w = 0 \/ 4 <= w < 65536
  | _ => True
  end.

Definition enc_external_file (x : external_file) : bytes :=
  le 4 (ef_entry_id x) ++ le 1 (enc_external_type (ef_file_type x)) ++ zeros 7 ++
  enc_string (ef_file_name x).
Definition wf_external_file (x : external_file) : Prop :=
  u32 (ef_entry_id x) /\ wf_external_type (ef_file_type x) /\ wf_string (ef_file_name x).
Definition enc_external_files (x : external_files_chunk) : bytes :=
  le 4 (zlen (efc_files x)) ++ zeros 8 ++ flat_map enc_external_file (efc_files x).
Definition wf_external_files (x : external_files_chunk) : Prop :=
  u32 (zlen (efc_files x)) /\ Forall wf_external_file (efc_files x).

Definition enc_mask (x : mask_chunk) : bytes :=
  les 2 (mk_x x) ++ les 2 (mk_y x) ++ le 2 (mk_width x) ++ le 2 (mk_height x) ++ zeros 8 ++
  enc_string (mk_name x) ++ mk_data x.
Definition wf_mask (x : mask_chunk) : Prop :=
  i16 (mk_x x) /\ i16 (mk_y x) /\ u16 (mk_width x) /\ u16 (mk_height x) /\
  wf_string (mk_name x) /\ is_bytes (mk_data x).

Definition enc_nine_patch (x : nine_patch) : bytes :=
  les 4 (np_x x) ++ les 4 (np_y x) ++ le 4 (np_width x) ++ le 4 (np_height x).
Definition wf_nine_patch (x : nine_patch) : Prop :=
  i32 (np_x x) /\ i32 (np_y x) /\ u32 (np_width x) /\ u32 (np_height x).
Definition enc_pivot (x : pivot) : bytes := les 4 (pv_x x) ++ les 4 (pv_y x).
Definition wf_pivot (x : pivot) : Prop := i32 (pv_x x) /\ i32 (pv_y x).
Definition enc_slice_key (k : slice_key) : bytes :=
  le 4 (sk_frame_number k) ++ les 4 (sk_x k) ++ les 4 (sk_y k) ++ le 4 (sk_width k) ++
  le 4 (sk_height k) ++ enc_opt enc_nine_patch (sk_nine_patch k) ++
  enc_opt enc_pivot (sk_pivot k).
(** The keys have a nine patch / a pivot as the flags of the slice say. *)
Definition wf_slice_key (flags : Z) (k : slice_key) : Prop :=
  u32 (sk_frame_number k) /\ i32 (sk_x k) /\ i32 (sk_y k) /\ u32 (sk_width k) /\
  u32 (sk_height k) /\
  wf_opt wf_nine_patch (sk_nine_patch k) /\
  (is_some (sk_nine_patch k) <-> flags = 1 \/ flags = 3) /\
  wf_opt wf_pivot (sk_pivot k) /\ (is_some (sk_pivot k) <-> flags = 2 \/ flags = 3).
Definition enc_slice (x : slice_chunk) : bytes :=
  le 4 (zlen (sc_slice_keys x)) ++ le 4 (sc_flags x) ++ zeros 4 ++ enc_string (sc_name x) ++
  flat_map enc_slice_key (sc_slice_keys x).
Definition wf_slice (x : slice_chunk) : Prop :=
  u32 (zlen (sc_slice_keys x)) /\ 0 <= sc_flags x < 4 /\ wf_string (sc_name x) /\
  Forall (wf_slice_key (sc_flags x)) (sc_slice_keys x) /\ sc_user_data x = None.

Definition enc_tag (t : tag_) : bytes :=
  le 2 (tg_from t) ++ le 2 (tg_to t) ++ le 1 (enc_direction (tg_animation_direction t)) ++
  le 2 (tg_animation_repeat t) ++ zeros 6 ++ tg_color t ++ zeros 1 ++ enc_string (tg_name t).
Definition wf_tag (t : tag_) : Prop :=
  u16 (tg_from t) /\ u16 (tg_to t) /\ tg_from t <= tg_to t /\
  wf_direction (tg_animation_direction t) /\ u16 (tg_animation_repeat t) /\
  zlen (tg_color t) = 3 /\ is_bytes (tg_color t) /\ wf_string (tg_name t) /\
  tg_user_data t = None.
Definition enc_tags (x : tags_chunk) : bytes :=
  le 2 (zlen (tc_tags x)) ++ zeros 8 ++ flat_map enc_tag (tc_tags x).
Definition wf_tags (x : tags_chunk) : Prop :=
  u16 (zlen (tc_tags x)) /\ Forall wf_tag (tc_tags x).

Definition enc_tileset_external (x : tileset_external_file) : bytes :=
  le 4 (te_external_file_id x) ++ le 4 (te_tileset_id x).
Definition wf_tileset_external (x : tileset_external_file) : Prop :=
  u32 (te_external_file_id x) /\ u32 (te_tileset_id x).
Definition enc_blob (d : bytes) : bytes := le 4 (zlen d) ++ d.
Definition wf_blob (d : bytes) : Prop := u32 (zlen d) /\ is_bytes d.
Definition enc_tileset (x : tileset_chunk) : bytes :=
  le 4 (ts_id x) ++ le 4 (ts_flags x) ++ le 4 (ts_number_of_tiles x) ++ le 2 (ts_width x) ++
  le 2 (ts_height x) ++ les 2 (ts_base_index x) ++ zeros 14 ++ enc_string (ts_name x) ++
  enc_opt enc_tileset_external (ts_external_file x) ++ enc_opt enc_blob (ts_tiles x).
Definition wf_tileset (x : tileset_chunk) : Prop :=
  u32 (ts_id x) /\ 0 <= ts_flags x < 64 /\ u32 (ts_number_of_tiles x) /\ u16 (ts_width x) /\
  u16 (ts_height x) /\ i16 (ts_base_index x) /\ wf_string (ts_name x) /\
  wf_opt wf_tileset_external (ts_external_file x) /\
  (is_some (ts_external_file x) <-> ts_flags x mod 2 = 1) /\
  wf_opt wf_blob (ts_tiles x) /\ (is_some (ts_tiles x) <-> ts_flags x / 2 mod 2 = 1).

(** ** User data *)
Definition enc_bool (b : bool) : bytes := if b then [1] else [0].

(** [VMixedVector] has no encoding. *)
Fixpoint enc_value (v : value) : bytes :=
  match v with
  | VBool b => le 2 0x01 ++ enc_bool b
  | VInt8 z => le 2 0x02 ++ les 1 z
  | VUint8 z => le 2 0x03 ++ le 1 z
  | VInt16 z => le 2 0x04 ++ les 2 z
  | VUint16 z => le 2 0x05 ++ le 2 z
  | VInt32 z => le 2 0x06 ++ les 4 z
  | VUint32 z => le 2 0x07 ++ le 4 z
  | VInt64 z => le 2 0x08 ++ les 8 z
  | VUint64 z => le 2 0x09 ++ le 8 z
  | VFixed f => le 2 0x0A ++ enc_fixed f
  | VFloat z => le 2 0x0B ++ le 4 z
  | VDouble z => le 2 0x0C ++ le 8 z
  | VString s => le 2 0x0D ++ enc_string s
  | VPoint p => le 2 0x0E ++ enc_point p
  | VSize s => le 2 0x0F ++ enc_size s
  | VRect r => le 2 0x10 ++ enc_rect r
  | VVector x => le 2 0x11 ++ enc_vector x
  | VMixedVector _ => []
  | VPropertiesMap m => le 2 0x12 ++ enc_map m
  | VUuid z => le 2 0x13 ++ le 16 z
  end
with enc_vector (x : vector) : bytes :=
  match x with
  | VecMixed l => le 4 (zlen l) ++ le 2 0 ++ flat_map enc_value l
  | VecBool l => le 4 (zlen l) ++ le 2 0x01 ++ flat_map enc_bool l
  | VecInt8 l => le 4 (zlen l) ++ le 2 0x02 ++ flat_map (les 1) l
  | VecUint8 l => le 4 (zlen l) ++ le 2 0x03 ++ flat_map (le 1) l
  | VecInt16 l => le 4 (zlen l) ++ le 2 0x04 ++ flat_map (les 2) l
  | VecUint16 l => le 4 (zlen l) ++ le 2 0x05 ++ flat_map (le 2) l
  | VecInt32 l => le 4 (zlen l) ++ le 2 0x06 ++ flat_map (les 4) l
  | VecUint32 l => le 4 (zlen l) ++ le 2 0x07 ++ flat_map (le 4) l
  | VecInt64 l => le 4 (zlen l) ++ le 2 0x08 ++ flat_map (les 8) l
  | VecUint64 l => le 4 (zlen l) ++ le 2 0x09 ++ flat_map (le 8) l
  | VecFixed l => le 4 (zlen l) ++ le 2 0x0A ++ flat_map enc_fixed l
  | VecFloat l => le 4 (zlen l) ++ le 2 0x0B ++ flat_map (le 4) l
  | VecDouble l => le 4 (zlen l) ++ le 2 0x0C ++ flat_map (le 8) l
  | VecString l => le 4 (zlen l) ++ le 2 0x0D ++ flat_map enc_string l
  | VecPoint l => le 4 (zlen l) ++ le 2 0x0E ++ flat_map enc_point l
  | VecSize l => le 4 (zlen l) ++ le 2 0x0F ++ flat_map enc_size l
  | VecRect l => le 4 (zlen l) ++ le 2 0x10 ++ flat_map enc_rect l
  | VecVector l => le 4 (zlen l) ++ le 2 0x11 ++ flat_map enc_vector l
  | VecPropertiesMap l => le 4 (zlen l) ++ le 2 0x12 ++ flat_map enc_map l
  | VecUuid l => le 4 (zlen l) ++ le 2 0x13 ++ flat_map (le 16) l
  end
with enc_map (m : properties_map) : bytes :=
  match m with PropMap l id => le 4 id ++ le 4 (zlen l) ++ flat_map enc_prop l end
with enc_prop (p : property) : bytes :=
  match p with Prop_ name v => enc_string name ++ enc_value v end.

(** [P] holds for all elements; unlike [Forall] this may be used in a recursive
    definition. *)
Definition all {A} (P : A -> Prop) : list A -> Prop :=
  fix all l := match l with [] => True | x :: r => P x /\ all r end.

Fixpoint wf_value (v : value) : Prop :=
  match v with
  | VBool b => True
  | VInt8 z => sint 1 z | VUint8 z => uint 1 z | VInt16 z => sint 2 z | VUint16 z => uint 2 z
  | VInt32 z => sint 4 z | VUint32 z => uint 4 z | VInt64 z => sint 8 z | VUint64 z => uint 8 z
  | VFixed f => wf_fixed f
  | VFloat z => uint 4 z | VDouble z => uint 8 z
  | VString s => wf_string s
  | VPoint p => wf_point p | VSize s => wf_size s | VRect r => wf_rect r
  | VVector x => wf_vector x
  | VMixedVector _ => False
  | VPropertiesMap m => wf_map m
  | VUuid z => uint 16 z
  end
with wf_vector (x : vector) : Prop :=
  match x with
  | VecMixed l => u32 (zlen l) /\ all wf_value l
  | VecBool l => u32 (zlen l)
  | VecInt8 l => u32 (zlen l) /\ all (sint 1) l
  | VecUint8 l => u32 (zlen l) /\ all (uint 1) l
  | VecInt16 l => u32 (zlen l) /\ all (sint 2) l
  | VecUint16 l => u32 (zlen l) /\ all (uint 2) l
  | VecInt32 l => u32 (zlen l) /\ all (sint 4) l
  | VecUint32 l => u32 (zlen l) /\ all (uint 4) l
  | VecInt64 l => u32 (zlen l) /\ all (sint 8) l
  | VecUint64 l => u32 (zlen l) /\ all (uint 8) l
  | VecFixed l => u32 (zlen l) /\ all wf_fixed l
  | VecFloat l => u32 (zlen l) /\ all (uint 4) l
  | VecDouble l => u32 (zlen l) /\ all (uint 8) l
  | VecString l => u32 (zlen l) /\ all wf_string l
  | VecPoint l => u32 (zlen l) /\ all wf_point l
  | VecSize l => u32 (zlen l) /\ all wf_size l
  | VecRect l => u32 (zlen l) /\ all wf_rect l
  | VecVector l => u32 (zlen l) /\ all wf_vector l
  | VecPropertiesMap l => u32 (zlen l) /\ all wf_map l
  | VecUuid l => u32 (zlen l) /\ all (uint 16) l
  end
with wf_map (m : properties_map) : Prop :=
  match m with PropMap l id => u32 id /\ u32 (zlen l) /\ all wf_prop l end
with wf_prop (p : property) : Prop :=
  match p with Prop_ name v => wf_string name /\ wf_value v end.

(** A properties area with maps; a kept error ([inr]) has no encoding. *)
Definition enc_area (x : bytes * list properties_map + nom_err) : bytes :=
  match x with
  | inl (rest, ms) =>
      let area := flat_map enc_map ms ++ rest in
      le 4 (zlen area + 8) ++ le 4 (zlen ms) ++ area
  | inr _ => []
  end.
Definition wf_area (x : bytes * list properties_map + nom_err) : Prop :=
  match x with
  | inl (rest, ms) =>
      Forall wf_map ms /\ is_bytes rest /\ u32 (zlen ms) /\
      u32 (zlen (flat_map enc_map ms ++ rest) + 8)
  | inr _ => False
  end.
Definition enc_user_data (u : user_data_chunk) : bytes :=
  le 4 (match ud_text u with Some _ => 1 | None => 0 end +
        match ud_color u with Some _ => 2 | None => 0 end +
        match ud_properties_maps u with Some _ => 4 | None => 0 end) ++
  enc_opt enc_string (ud_text u) ++ enc_opt enc_color (ud_color u) ++
  enc_opt enc_area (ud_properties_maps u).
Definition wf_user_data (u : user_data_chunk) : Prop :=
  wf_opt wf_string (ud_text u) /\ wf_opt wf_color (ud_color u) /\
  wf_opt wf_area (ud_properties_maps u).

(** ** Chunks, frames, files *)
Definition enc_payload (x : chunk) : bytes :=
  match x with
  | ChPalette0004 p | ChPalette0011 p => enc_old_palette p
  | ChLayer l => enc_layer l
  | ChCel y => enc_cel y
  | ChCelExtra y => enc_cel_extra y
  | ChColorProfile y => enc_color_profile y
  | ChExternalFiles y => enc_external_files y
  | ChMask y => enc_mask y
  | ChPath => []
  | ChTags t => enc_tags t
  | ChPalette p => enc_palette p
  | ChUserData u => enc_user_data u
  | ChSlice s => enc_slice s
  | ChTileset t => enc_tileset t
  | ChUnsupported _ => []
  end.
Definition wf_payload (x : chunk) : Prop :=
  match x with
  | ChPalette0004 p | ChPalette0011 p => wf_old_palette p
  | ChLayer l => wf_layer l
  | ChCel y => wf_cel y
  | ChCelExtra y => wf_cel_extra y
  | ChColorProfile y => wf_color_profile y
  | ChExternalFiles y => wf_external_files y
  | ChMask y => wf_mask y
  | ChPath => True
  | ChTags t => wf_tags t
  | ChPalette p => wf_palette p
  | ChUserData u => wf_user_data u
  | ChSlice s => wf_slice s
  | ChTileset t => wf_tileset t
  | ChUnsupported t => u16 t /\ ~ In t known_codes
  end.
Definition enc_chunk (x : chunk) : bytes := encode_chunk (chunk_code x) (enc_payload x).
Definition wf_chunk (x : chunk) : Prop := wf_payload x /\ u32 (zlen (enc_chunk x)).

(** Only the new chunk counter is used. *)
Definition enc_raw_frame (f : raw_frame) : bytes :=
  let body := flat_map enc_chunk (rf_chunks f) in
  le 4 (16 + zlen body) ++ le 2 0xF1FA ++ le 2 0 ++ le 2 (rf_duration f) ++ zeros 2 ++
  le 4 (zlen (rf_chunks f)) ++ body.
Definition wf_raw_frame (f : raw_frame) : Prop :=
  u16 (rf_duration f) /\ Forall wf_chunk (rf_chunks f) /\ u32 (zlen (enc_raw_frame f)).

Definition enc_file (f : raw_file) : bytes :=
  enc_header (rw_header f) ++ flat_map enc_raw_frame (rw_frames f).
Definition wf_file (f : raw_file) : Prop :=
  wf_header (rw_header f) /\ rw_frames f <> [] /\ Forall wf_raw_frame (rw_frames f).

(** No user data chunk of [f] kept an error instead of its property maps. *)
Definition no_map_error (f : raw_file) : Prop :=
  forall fr u e, In fr (rw_frames f) -> In (ChUserData u) (rf_chunks fr) ->
    ud_properties_maps u <> Some (inr e).
