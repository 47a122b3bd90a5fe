(** Properties of the parsers in src/binary (C02 in part, C03-C07, C09-C13,
    C15-C22, C51).  Every theorem is closed by one lemma of Proofs/. *)
From Verif.Model Require Import RawFile.
From Verif.Spec Require Import Bytes Utf8Spec Format Slices.
From Verif.Proofs Require Import ParseLib ChunkFacts ChunkFacts2 UserDataFacts RawFacts Safety
  SlicesFacts BinaryProps BinaryProps2 BinaryFinal Utf8Facts.
From Verif.Tests Require Import TestData Configs.

(** ** C02 *)
(** Raw parsing always comes to an end: the only way it does not return is an
    overflow check of a debug build. *)
Theorem C02_raw_terminates : forall c i q,
  is_bytes i -> parse_raw_file c i = Panic q -> debug c = true /\ q = POverflow.
Proof. exact parse_raw_file_overflow. Qed.
Print Assumptions C02_raw_terminates.

(** A repetition count taken from the file is never iterated more often than
    there are bytes left, plus one, ... *)
Theorem C02_repetition_cost : forall A (p : parser A) n i,
  (forall i r a, is_bytes i -> p i = Ok (r, a) -> exists e, e <> [] /\ i = e ++ r) ->
  is_bytes i -> zlen i < n -> count p n i = count p (zlen i + 1) i.
Proof. exact @count_cost. Qed.
Print Assumptions C02_repetition_cost.

(** ... because every element parser that is repeated consumes input. *)
Theorem C02_elements_consume : forall c f,
  consuming parse_bool /\ (forall n, (0 < n)%nat -> consuming (le_uint n) /\ consuming (le_int n)) /\
  consuming fixed /\ consuming parse_string /\ consuming parse_point /\ consuming parse_size /\
  consuming parse_rect /\ consuming (parse_value c f) /\ consuming (parse_vector c f) /\
  consuming (parse_properties_map c f) /\ consuming (parse_property (parse_value c f)) /\
  consuming parse_rgb /\ consuming parse_packet /\ consuming parse_palette_entry /\
  consuming parse_external_file /\
  (forall k, consuming (parse_slice_key (from_bits_truncate SF_ALL k))) /\ consuming parse_tag /\
  consuming (parse_chunk c).
Proof. exact elements_consuming. Qed.
Print Assumptions C02_elements_consume.

Example C02_example : (* a count of four billion with 3 bytes left *)
  count byte 4294967295 [1; 2; 3] = Err (NError (ENom [] KEof)) /\
  (exists f, parse_raw_file dbg64 file_combine = Ok f).
Proof.
  split; [|eexists; vm_compute; reflexivity].
  rewrite C02_repetition_cost; [reflexivity| |apply bytes_by_compute; reflexivity|reflexivity].
  apply (proj1 (proj2 (C02_elements_consume dbg64 0)) 1%nat); lia.
Qed.

(** ** C03 *)
Theorem C03_scalars :
  reads byte (uint_l 1) /\ reads word (uint_l 2) /\ reads dword (uint_l 4) /\
  reads short (sint_l 2) /\ reads long (sint_l 4) /\
  (forall n, reads (le_uint n) (uint_l n)) /\
  (forall n, (0 < n)%nat -> reads (le_int n) (sint_l n)).
Proof. exact scalars_read. Qed.
Print Assumptions C03_scalars.

Theorem C03_too_short : forall n i, (length i < n)%nat <-> exists e, le_uint n i = Err e.
Proof. exact le_uint_short. Qed.
Print Assumptions C03_too_short.

Example C03_example :
  word [0x34; 0x12; 7] = Ok ([7], 0x1234) /\ short [0xFE; 0xFF; 7] = Ok ([7], -2) /\
  dword [1; 2; 3] = Err (NError (ENom [1; 2; 3] KEof)).
Proof. repeat split. Qed.

(** ** C04 *)
Theorem C04_strings : reads parse_string string_l.
Proof. exact strings_read. Qed.
Print Assumptions C04_strings.

Theorem C04_utf8_validation : forall s, from_utf8 s = None <-> is_utf8 s.
Proof. exact from_utf8_valid. Qed.
Print Assumptions C04_utf8_validation.

Example C04_example : (* "é€" is accepted; a surrogate and an overlong slash are not *)
  parse_string [5; 0; 0xC3; 0xA9; 0xE2; 0x82; 0xAC; 9] = Ok ([9], [0xC3; 0xA9; 0xE2; 0x82; 0xAC]) /\
  parse_string [3; 0; 0xED; 0xA0; 0x80] = Err (NError (EUtf8 0 (Some 1))) /\
  parse_string [2; 0; 0xC0; 0xAF] = Err (NError (EUtf8 0 (Some 1))).
Proof. repeat split. Qed.

(** ** C05 *)
Theorem C05_header : reads parse_header header_l.
Proof. exact header_reads. Qed.
Print Assumptions C05_header.

Theorem C05_header_accepted : forall i, is_bytes i ->
  ((exists r h, parse_header i = Ok (r, h)) <->
   128 <= zlen i /\ field i 4 2 = [0xE0; 0xA5] /\ field i 20 8 = [0; 0; 0; 0; 0; 0; 0; 0]).
Proof. exact header_accept. Qed.
Print Assumptions C05_header_accepted.

Theorem C05_header_fields : forall i r h, is_bytes i -> parse_header i = Ok (r, h) ->
  r = skipn 128 i /\
  u32 (h_file_size h) /\ field i 0 4 = le 4 (h_file_size h) /\
  field i 4 2 = [0xE0; 0xA5] /\
  u16 (h_frames h) /\ field i 6 2 = le 2 (h_frames h) /\
  u16 (h_width h) /\ field i 8 2 = le 2 (h_width h) /\
  u16 (h_height h) /\ field i 10 2 = le 2 (h_height h) /\
  (exists d, u16 d /\ field i 12 2 = le 2 d /\ h_color_depth h = color_depth_code d) /\
  u32 (h_flags h) /\ field i 14 4 = le 4 (h_flags h) /\
  u16 (h_speed h) /\ field i 18 2 = le 2 (h_speed h) /\
  field i 20 8 = [0; 0; 0; 0; 0; 0; 0; 0] /\
  u8 (h_transparent_index h) /\ field i 28 1 = le 1 (h_transparent_index h) /\
  u16 (h_color_count h) /\ field i 32 2 = le 2 (h_color_count h) /\
  u8 (h_pixel_width h) /\ field i 34 1 = le 1 (h_pixel_width h) /\
  u8 (h_pixel_height h) /\ field i 35 1 = le 1 (h_pixel_height h) /\
  i16 (h_grid_x h) /\ field i 36 2 = les 2 (h_grid_x h) /\
  i16 (h_grid_y h) /\ field i 38 2 = les 2 (h_grid_y h) /\
  u16 (h_grid_width h) /\ field i 40 2 = le 2 (h_grid_width h) /\
  u16 (h_grid_height h) /\ field i 42 2 = le 2 (h_grid_height h).
Proof. exact header_fields. Qed.
Print Assumptions C05_header_fields.

Example C05_example :
  exists r h, parse_header file_indexed = Ok (r, h) /\ h_color_depth h = Indexed /\
    0 < h_width h /\ 0 < h_height h /\ zlen r = zlen file_indexed - 128.
Proof. eexists _, _. split; [vm_compute; reflexivity|]. vm_compute. repeat split. Qed.

(** ** C06 *)
Theorem C06_file_is_frames : forall c i f, cfg_ok c -> is_bytes i -> addressable c i ->
  (parse_raw_file c i = Ok f <->
   exists e1 e2, header_l (rw_header f) e1 /\ rw_frames f <> [] /\
     seq_l (frame_l (kept_error c)) (rw_frames f) e2 /\ i = e1 ++ e2).
Proof. exact parse_raw_file_iff. Qed.
Print Assumptions C06_file_is_frames.

(** Acceptance alone, without mentioning any function of the model. *)
Theorem C06_accepted : forall c i, cfg_ok c -> is_bytes i -> addressable c i ->
  ((exists f, parse_raw_file c i = Ok f) <-> exists f, raw_file_l not_maps f i).
Proof. exact raw_accepted_iff. Qed.
Print Assumptions C06_accepted.

Example C06_example : exists f, parse_raw_file dbg64 file_issue_4_2 = Ok f /\ zlen (rw_frames f) = 6 /\
  map rf_duration (rw_frames f) = [100; 100; 100; 100; 100; 100].
Proof. eexists. split; [vm_compute; reflexivity|]. vm_compute. repeat split. Qed.

(** ** C07 *)
Theorem C07_extension : forall c, cfg_ok c -> forall i t g f,
  is_bytes (i ++ t) -> addressable c (i ++ t) -> parse_raw_file c i = Ok g ->
  (parse_raw_file c (i ++ t) = Ok f <->
   exists more, rw_header f = rw_header g /\ rw_frames f = rw_frames g ++ more /\
     seq_l (frame_l (kept_error c)) more t).
Proof. exact raw_extension. Qed.
Print Assumptions C07_extension.

Example C07_example : (* cutting off one byte, or adding one, *)
  (exists e, parse_raw_file dbg64 (removelast file_combine) = Err e) /\
  (exists e, parse_raw_file dbg64 (file_combine ++ [0]) = Err e) /\
  (* but not a frame without chunks *)
  (exists f, parse_raw_file dbg64
     (file_combine ++ [16; 0; 0; 0; 0xFA; 0xF1; 0; 0; 1; 0; 0; 0; 0; 0; 0; 0]) = Ok f /\
     zlen (rw_frames f) = 2).
Proof. repeat split; eexists; [| |split]; vm_compute; reflexivity. Qed.

(** ** C09 *)
Theorem C09_chunk_framing : forall c, cfg_ok c -> forall x d r,
  is_bytes (d ++ r) -> addressable c (encode_chunk (chunk_code x) d ++ r) -> u32 (zlen d + 6) ->
  (parse_chunk c (encode_chunk (chunk_code x) d ++ r) = Ok (r, x) <-> payload_l (kept_error c) x d).
Proof. exact chunk_iff. Qed.
Print Assumptions C09_chunk_framing.

(** An accepted chunk has exactly the length its size field says. *)
Theorem C09_chunk_size : forall c i r x, cfg_ok c -> is_bytes i -> addressable c i ->
  parse_chunk c i = Ok (r, x) -> exists e, i = e ++ r /\ u32 (zlen e) /\ firstn 4 i = le 4 (zlen e).
Proof. exact chunk_size_field. Qed.
Print Assumptions C09_chunk_size.

Theorem C09_unknown_chunk : forall c, cfg_ok c -> forall t d r,
  is_bytes (d ++ r) -> addressable c (encode_chunk t d ++ r) -> u32 (zlen d + 6) ->
  u16 t -> ~ In t known_codes ->
  parse_chunk c (encode_chunk t d ++ r) = Ok (r, ChUnsupported t).
Proof. exact unknown_chunk. Qed.
Print Assumptions C09_unknown_chunk.

Theorem C09_trailing_bytes_ignored : forall c, cfg_ok c -> forall x d t r,
  is_bytes (d ++ t ++ r) -> addressable c (encode_chunk (chunk_code x) (d ++ t) ++ r) ->
  u32 (zlen (d ++ t) + 6) -> takes_rest x = false ->
  parse_chunk c (encode_chunk (chunk_code x) d) = Ok ([], x) ->
  parse_chunk c (encode_chunk (chunk_code x) (d ++ t) ++ r) = Ok (r, x).
Proof. exact trailing_ignored. Qed.
Print Assumptions C09_trailing_bytes_ignored.

Example C09_example :
  parse_chunk dbg64 ([9; 0; 0; 0; 0x99; 0x20; 1; 2; 3] ++ [4]) = Ok ([4], ChUnsupported 0x2099) /\
  parse_chunk dbg64 [8; 0; 0; 0; 4; 0; 0; 0] = Ok ([], ChPalette0004 {| op_packets := [] |}) /\
  parse_chunk dbg64 [9; 0; 0; 0; 4; 0; 0; 0; 77] = Ok ([], ChPalette0004 {| op_packets := [] |}).
Proof. repeat split. Qed.

(** ** C10 *)
Theorem C10_frame : forall c, cfg_ok c -> forall i r f, is_bytes i -> addressable c i ->
  (parse_rawframe c i = Ok (r, f) <-> exists e, i = e ++ r /\ frame_l (kept_error c) f e).
Proof. exact frame_iff. Qed.
Print Assumptions C10_frame.

(** The count field that is used, read off the bytes. *)
Theorem C10_chunk_count : forall c, cfg_ok c -> forall i r f, is_bytes i -> addressable c i ->
  parse_rawframe c i = Ok (r, f) ->
  exists old new, u16 old /\ u32 new /\ field i 6 2 = le 2 old /\ field i 12 4 = le 4 new /\
    zlen (rf_chunks f) = (if new =? 0 then old else new).
Proof. exact frame_count. Qed.
Print Assumptions C10_chunk_count.

Example C10_example : (* old count 1, new count 0; then old count 0xFFFF, new count 1 *)
  (exists f, parse_rawframe dbg64
     [24; 0; 0; 0; 0xFA; 0xF1; 1; 0; 7; 0; 0; 0; 0; 0; 0; 0; 8; 0; 0; 0; 4; 0; 0; 0] = Ok ([], f) /\
     zlen (rf_chunks f) = 1 /\ rf_duration f = 7) /\
  (exists f, parse_rawframe dbg64
     [24; 0; 0; 0; 0xFA; 0xF1; 255; 255; 7; 0; 0; 0; 1; 0; 0; 0; 8; 0; 0; 0; 4; 0; 0; 0] = Ok ([], f) /\
     zlen (rf_chunks f) = 1).
Proof. split; eexists; repeat split; vm_compute; reflexivity. Qed.

(** ** C11 *)
Theorem C11_layer : reads parse_layer_chunk layer_l.
Proof. exact layer_reads. Qed.
Print Assumptions C11_layer.

Example C11_example : (* a tilemap layer "a" with tileset 7 *)
  parse_layer_chunk [1; 0; 2; 0; 0; 0; 0; 0; 0; 0; 3; 0; 200; 0; 0; 0; 1; 0; 97; 7; 0; 0; 0] =
  Ok ([], {| lc_flags := 1; lc_layer_type := LTilemap; lc_child_level := 0; lc_blend_mode := BOverlay;
             lc_opacity := 200; lc_name := [97]; lc_tileset_index := Some 7; lc_user_data := None |}).
Proof. reflexivity. Qed.

(** ** C12 *)
Theorem C12_cel : forall i r x, is_bytes i -> (parse_cel_chunk i = Ok (r, x) <-> r = [] /\ cel_l x i).
Proof. exact parse_cel_iff. Qed.
Print Assumptions C12_cel.

Example C12_example : (* a raw 1x1 cel at (-1, 2) *)
  parse_cel_chunk [3; 0; 255; 255; 2; 0; 128; 0; 0; 0; 0; 9; 9; 9; 9; 9; 1; 0; 1; 0; 10; 20; 30; 40] =
  Ok ([], {| cc_layer_index := 3; cc_x := -1; cc_y := 2; cc_opacity := 128; cc_z_index := 0;
     cc_content := CImage {| im_width := 1; im_height := 1; im_compressed := false;
                             im_data := [10; 20; 30; 40] |};
     cc_user_data := None |}).
Proof. reflexivity. Qed.

(** ** C13 *)
Theorem C13_tags : reads parse_tags_chunk tags_l.
Proof. exact tags_reads. Qed.
Print Assumptions C13_tags.

Theorem C13_tag_ranges : forall i r t x, is_bytes i -> parse_tags_chunk i = Ok (r, t) ->
  In x (tc_tags t) -> 0 <= tg_from x <= tg_to x /\ tg_to x < 65536.
Proof. exact tag_ranges. Qed.
Print Assumptions C13_tag_ranges.

Theorem C13_reversed_tag_fails : forall from to rest, u16 from -> u16 to -> to < from ->
  is_bytes rest -> exists err, parse_tag (le 2 from ++ le 2 to ++ rest) = Err err.
Proof. exact reversed_tag. Qed.
Print Assumptions C13_reversed_tag_fails.

Example C13_example :
  (exists r t, parse_tag ([1; 0; 3; 0; 2; 0; 0] ++ repeat 0 10 ++ [1; 0; 97]) = Ok (r, t) /\
     tg_from t = 1 /\ tg_to t = 3 /\ tg_animation_direction t = DPingPong) /\
  (exists e, parse_tag ([3; 0; 1; 0; 2; 0; 0] ++ repeat 0 10 ++ [1; 0; 97]) = Err e).
Proof. split; [eexists _, _|eexists]; repeat split. Qed.

(** ** C15 *)
(** What the code does: it reads as many entries as the size field says. *)
Theorem C15_palette_partial : forall c, cfg_ok c -> reads (parse_palette_chunk c) palette_l.
Proof. exact palette_reads. Qed.
Print Assumptions C15_palette_partial.

(** It agrees with the published layout when that happens to be last - first + 1. *)
Theorem C15_palette_spec_partial : forall c p e r, cfg_ok c ->
  spec_palette_l (zlen (pc_entries p)) p e -> parse_palette_chunk c (e ++ r) = Ok (r, p).
Proof. exact palette_agrees. Qed.
Print Assumptions C15_palette_spec_partial.

Theorem C15_palette_rejects : forall c size first last rest,
  u32 size -> u32 first -> u32 last -> is_bytes rest -> 255 < last \/ last < first ->
  exists err, parse_palette_chunk c (le 4 size ++ le 4 first ++ le 4 last ++ rest) = Err err.
Proof. exact palette_rejects. Qed.
Print Assumptions C15_palette_rejects.

(** The full statement fails: a chunk updating colour 1 of a palette of two is
    rejected, and with two bytes of padding it is misread. *)
Theorem C15_palette_refuted :
  (exists p e, is_bytes e /\ spec_palette_l 2 p e /\
     forall c, cfg_ok c -> exists err, parse_palette_chunk c e = Err err) /\
  (exists p e, is_bytes e /\ spec_palette_l 0 p e /\
     forall c, cfg_ok c -> exists r p', parse_palette_chunk c e = Ok (r, p') /\ pc_entries p' <> pc_entries p).
Proof. exact palette_refuted. Qed.
Print Assumptions C15_palette_refuted.

Example C15_example :
  parse_palette_chunk dbg64 ([1; 0; 0; 0; 5; 0; 0; 0; 5; 0; 0; 0] ++ repeat 0 8 ++ [0; 0; 1; 2; 3; 4]) =
  Ok ([], {| pc_first := 5; pc_last := 5;
     pc_entries := [{| pe_color := {| red := 1; green := 2; blue := 3; alpha := 4 |}; pe_name := None |}] |}).
Proof. reflexivity. Qed.

(** ** C16 *)
Theorem C16_old_palette : reads parse_old_palette_chunk old_palette_l.
Proof. exact old_palette_reads. Qed.
Print Assumptions C16_old_palette.

Example C16_example :
  parse_old_palette_chunk [1; 0; 3; 2; 1; 2; 3; 4; 5; 6; 9] =
  Ok ([9], {| op_packets := [{| pk_entries_to_skip := 3;
     pk_colors := [{| rgb_red := 1; rgb_green := 2; rgb_blue := 3 |};
                   {| rgb_red := 4; rgb_green := 5; rgb_blue := 6 |}] |}] |}) /\
  (exists r p, parse_packet (3 :: 0 :: repeat 0 (Z.to_nat 768)) = Ok (r, p) /\ zlen (pk_colors p) = 256).
Proof. split; [reflexivity|]. eexists _, _. split; vm_compute; reflexivity. Qed.

(** ** C17 *)
Theorem C17_slice : forall c, cfg_ok c -> reads (parse_slice_chunk c) slice_l.
Proof. exact slice_reads. Qed.
Print Assumptions C17_slice.

Example C17_example : exists r s, parse_slice_chunk dbg64
  ([1; 0; 0; 0; 2; 0; 0; 0; 0; 0; 0; 0; 1; 0; 97] ++ repeat 1 20 ++ repeat 2 8) = Ok (r, s) /\ r = [] /\
  map sk_pivot (sc_slice_keys s) = [Some {| pv_x := 0x02020202; pv_y := 0x02020202 |}] /\
  map sk_nine_patch (sc_slice_keys s) = [None].
Proof. eexists _, _. repeat split. Qed.

(** ** C18 *)
Theorem C18_user_data : forall c, cfg_ok c -> forall i r u, is_bytes i -> addressable c i ->
  (parse_user_data_chunk c i = Ok (r, u) <-> exists e, i = e ++ r /\ user_data_l (kept_error c) u e).
Proof. exact user_data_iff. Qed.
Print Assumptions C18_user_data.

(** An error is kept exactly when the area does not start with its maps. *)
Theorem C18_map_error : forall c area n, cfg_ok c -> is_bytes area -> 0 <= n ->
  ((exists err, kept_error c area n err) <->
   ~ exists e rest ms, area = e ++ rest /\ zlen ms = n /\ maps_l ms e).
Proof. exact kept_error_iff. Qed.
Print Assumptions C18_map_error.

(** Round trip of property trees of any depth. *)
Theorem C18_maps_round_trip : forall c n area ms, cfg_ok c -> is_bytes area ->
  u32 n -> u32 (zlen area + 8) -> zlen ms = n -> maps_l ms area ->
  forall r, parse_properties_maps c (le 4 (zlen area + 8) ++ le 4 n ++ area ++ r) = Ok (r, inl ([], ms)).
Proof. exact maps_round_trip. Qed.
Print Assumptions C18_maps_round_trip.

(** Unambiguity: an area encodes at most one list of maps. *)
Theorem C18_maps_unambiguous : forall ms ms' e r e' r', zlen ms = zlen ms' -> is_bytes (e ++ r) ->
  maps_l ms e -> maps_l ms' e' -> e ++ r = e' ++ r' -> ms = ms' /\ e = e' /\ r = r'.
Proof. exact maps_unambiguous. Qed.
Print Assumptions C18_maps_unambiguous.

Example C18_example : (* {0: {"a": [[true]]}} *)
  parse_user_data_chunk dbg64
    ([4; 0; 0; 0] ++ [32; 0; 0; 0] ++ [1; 0; 0; 0] ++
     [0; 0; 0; 0; 1; 0; 0; 0; 1; 0; 97; 0x11; 0; 1; 0; 0; 0; 0x11; 0; 1; 0; 0; 0; 1]) =
  Ok ([], {| ud_text := None; ud_color := None; ud_properties_maps := Some (inr (NError (ENom [1] KEof))) |}) /\
  parse_user_data_chunk dbg64
    ([4; 0; 0; 0] ++ [34; 0; 0; 0] ++ [1; 0; 0; 0] ++
     [0; 0; 0; 0; 1; 0; 0; 0; 1; 0; 97; 0x11; 0; 1; 0; 0; 0; 0x11; 0; 1; 0; 0; 0; 1; 0; 1]) =
  Ok ([], {| ud_text := None; ud_color := None;
     ud_properties_maps := Some (inl ([], [PropMap [Prop_ [97] (VVector (VecVector [VecBool [true]]))] 0])) |}).
Proof. split; vm_compute; reflexivity. Qed.

(** ** C19 *)
Theorem C19_tileset : reads parse_tileset_chunk tileset_l.
Proof. exact tileset_reads. Qed.
Print Assumptions C19_tileset.
Theorem C19_external_files : forall c, cfg_ok c -> reads (parse_external_files_chunk c) external_files_l.
Proof. exact external_files_reads. Qed.
Print Assumptions C19_external_files.
Theorem C19_color_profile : reads parse_color_profile color_profile_l.
Proof. exact color_profile_reads. Qed.
Print Assumptions C19_color_profile.
Theorem C19_mask : forall i r x, is_bytes i -> (parse_mask_chunk i = Ok (r, x) <-> r = [] /\ mask_l x i).
Proof. exact parse_mask_iff. Qed.
Print Assumptions C19_mask.
Theorem C19_cel_extra : forall i r x, is_bytes i ->
  (parse_cel_extra_chunk i = Ok (r, x) <-> r = [] /\ cel_extra_l x i).
Proof. exact parse_cel_extra_iff. Qed.
Print Assumptions C19_cel_extra.

Example C19_example :
  parse_color_profile ([1; 0; 1; 0; 0; 128; 1; 0] ++ repeat 0 8) =
  Ok ([], {| cp_profile := CPSrgb; cp_fixed_gamma := Some {| fx_0 := 1; fx_1 := 32768 |} |}) /\
  (exists r t, parse_tileset_chunk ([7; 0; 0; 0; 2; 0; 0; 0; 3; 0; 0; 0; 8; 0; 8; 0; 1; 0] ++ repeat 0 14 ++
     [1; 0; 97; 2; 0; 0; 0; 11; 12]) = Ok (r, t) /\ ts_tiles t = Some [11; 12] /\ ts_id t = 7).
Proof. split; [reflexivity|]. eexists _, _. repeat split. Qed.

(** ** C20 *)
(** Every code but one per enumeration is returned as its name, or as
    Unknown(code). *)
Theorem C20_unknown_codes_partial :
  (forall w, 0 <= w -> w <> 19 -> blend_mode_from w =
     table [BNormal; BMultiply; BScreen; BOverlay; BDarken; BLighten; BColorDodge; BColorBurn;
            BHardLight; BSoftLight; BDifference; BExclusion; BHue; BSaturation; BColor;
            BLuminosity; BAddition; BSubtract; BDivide] BUnknown w) /\
  (forall w, 0 <= w -> w <> 4 -> cel_type_from w =
     table [CTRawImageData; CTLinkedCel; CTCompressedImage; CTCompressedTilemap] CTUnknown w) /\
  (forall w, 0 <= w -> w <> 3 -> color_profile_type_from w =
     table [CPTNone; CPTSrgb; CPTEmbeddedICC] CPTUnknown w) /\
  (forall w, 0 <= w -> w <> 3 -> external_file_type_from w =
     table [EFPalette; EFTileset; EFExtensionName] EFUnknown w) /\
  (forall w, 0 <= w -> w <> 4 -> animation_direction_from w =
     table [DForward; DReverse; DPingPong; DPingPongReverse] DirUnknown w) /\
  (forall w, 0 <= w -> layer_type_from w = table [LNormal; LGroup; LTilemap] LUnknown w) /\
  (forall w, 0 <= w -> color_depth_from w = color_depth_code w).
Proof. exact unknown_codes. Qed.
Print Assumptions C20_unknown_codes_partial.

(** The full statement fails for the first unnamed code of five enumerations. *)
Theorem C20_unknown_codes_refuted :
  parse_blend_mode (le 2 19) = Ok ([], BUnknown 0) /\ cel_type_from 4 = CTUnknown 0 /\
  color_profile_type_from 3 = CPTUnknown 0 /\ external_file_type_from 3 = EFUnknown 0 /\
  animation_direction_from 4 = DirUnknown 0.
Proof. exact unknown_codes_refuted. Qed.
Print Assumptions C20_unknown_codes_refuted.

Example C20_example : parse_blend_mode [20; 0] = Ok ([], BUnknown 20) /\ layer_type_from 3 = LUnknown 3.
Proof. split; reflexivity. Qed.

(** ** C21 *)
(** Bits 0 to 3 are tested correctly; the kept flags are the low seven bits. *)
Theorem C21_layer_flags_partial : forall f,
  contains (from_bits_truncate LF_ALL f) LF_VISIBLE = Z.testbit f 0 /\
  contains (from_bits_truncate LF_ALL f) LF_EDITABLE = Z.testbit f 1 /\
  contains (from_bits_truncate LF_ALL f) LF_LOCK_MOVEMENT = Z.testbit f 2 /\
  contains (from_bits_truncate LF_ALL f) LF_BACKGROUND = Z.testbit f 3.
Proof. exact layer_flags. Qed.
Print Assumptions C21_layer_flags_partial.

(** What the other three constants test instead of bits 4, 5, 6. *)
Theorem C21_layer_flags_actual : forall f,
  contains (from_bits_truncate LF_ALL f) LF_PREFER_LINKED_CELS =
    Z.testbit f 1 && Z.testbit f 2 && Z.testbit f 4 /\
  contains (from_bits_truncate LF_ALL f) LF_COLLAPSED =
    Z.testbit f 1 && Z.testbit f 4 && Z.testbit f 5 /\
  contains (from_bits_truncate LF_ALL f) LF_REFERENCE =
    Z.testbit f 2 && Z.testbit f 5 && Z.testbit f 6.
Proof. exact layer_flags_actual. Qed.
Print Assumptions C21_layer_flags_actual.

Theorem C21_layer_flags_refuted :
  contains (from_bits_truncate LF_ALL 16) LF_PREFER_LINKED_CELS <> Z.testbit 16 4 /\
  contains (from_bits_truncate LF_ALL 32) LF_COLLAPSED <> Z.testbit 32 5 /\
  contains (from_bits_truncate LF_ALL 64) LF_REFERENCE <> Z.testbit 64 6.
Proof. exact layer_flags_refuted. Qed.
Print Assumptions C21_layer_flags_refuted.

(** ** C22, raw level; the file level is in Properties/File.v *)
Theorem C22_raw_slices : forall c i f s, cfg_ok c -> is_bytes i -> addressable c i ->
  parse_raw_file c i = Ok f -> In s (raw_slices f) -> infix s i.
Proof. exact raw_slices_infix. Qed.
Print Assumptions C22_raw_slices.

Example C22_example : exists f, parse_raw_file dbg64 file_layers = Ok f /\ zlen (raw_slices f) > 3.
Proof. eexists. split; vm_compute; reflexivity. Qed.

(** ** C51 *)
(** The nesting is not bounded: for every depth [n] there is a property vector
    of 6n+6 bytes that needs more than [n] nested calls. *)
Theorem C51_nesting_refuted : forall c n, cfg_ok c -> exists v e,
  length e = (6 * n + 6)%nat /\ vector_l v e /\
  (forall r, parse_vector c n (e ++ r) = Panic PFuel) /\
  (forall r, parse_vector c (S n) (e ++ r) = Ok (r, v)).
Proof. exact nesting_unbounded. Qed.
Print Assumptions C51_nesting_refuted.

(** What does hold: the depth never exceeds the number of bytes. *)
Theorem C51_nesting_partial : forall c i q, is_bytes i ->
  parse_value c (S (length i)) i <> Panic q.
Proof. exact nesting_bounded. Qed.
Print Assumptions C51_nesting_partial.

Example C51_example : nested_bytes 2 = [1; 0; 0; 0; 17; 0; 1; 0; 0; 0; 17; 0; 0; 0; 0; 0; 17; 0].
Proof. reflexivity. Qed.
