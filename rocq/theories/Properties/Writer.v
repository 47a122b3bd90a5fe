(** Size of the results (C63) and writing files (C64). *)
From Verif.Model Require Import Loader.
From Verif.Spec Require Import Bytes Format Encode Size.
From Verif.Proofs Require Import EncodeProps SizeProps WriterFinal.
From Verif.Tests Require Import Configs Build TestData.

(** ** C63 *)
(** Every element of the raw result was paid for with a byte of input ... *)
Theorem C63_raw : forall c i f, cfg_ok c -> is_bytes i -> addressable c i ->
  parse_raw_file c i = Ok f -> 128 + raw_items f <= zlen i.
Proof. exact raw_linear. Qed.
Print Assumptions C63_raw.

(** ... but the frames of the sprite have a place for a cel of every layer. *)
Theorem C63_slots : forall c i f, cfg_ok c -> is_bytes i -> addressable c i -> parse_file c i = Ok f ->
  cel_slots f = zlen (f_frames f) * zlen (f_layers f) /\
  128 + 16 * zlen (f_frames f) + 24 * zlen (f_layers f) <= zlen i.
Proof. exact file_slots. Qed.
Print Assumptions C63_slots.

(** The full claim would be [cel_slots f <= K * zlen i] for a constant [K]; what
    holds is the square. *)
Theorem C63_quadratic_partial : forall c i f, cfg_ok c -> is_bytes i -> addressable c i ->
  parse_file c i = Ok f -> 1536 * cel_slots f <= (zlen i - 128) * (zlen i - 128).
Proof. exact file_quadratic. Qed.
Print Assumptions C63_quadratic_partial.

(** A file of [128 + 40 * n] bytes without a single cel makes [load] allocate
    [n * n] places for cels. *)
Theorem C63_square : forall c n, cfg_ok c -> 0 < n -> 128 + 40 * n < 2 ^ (usize_bits c - 1) ->
  exists i s, is_bytes i /\ zlen i = 128 + 40 * n /\ load c i = Ok s /\
    Forall (fun fr => Forall (fun o => o = None) (fr_cels fr)) (f_frames (af_file s)) /\
    cel_slots (af_file s) = n * n.
Proof. exact slots_unbounded. Qed.
Print Assumptions C63_square.

Theorem C63_linear_refuted : forall c K, cfg_ok c -> 0 <= K <= 1000000 ->
  exists i s, is_bytes i /\ addressable c i /\ load c i = Ok s /\ K * zlen i < cel_slots (af_file s).
Proof. exact slots_refuted. Qed.
Print Assumptions C63_linear_refuted.

Example C63_example : exists f s, parse_raw_file dbg64 file_user_data = Ok f /\
  load dbg64 file_user_data = Ok s /\
  (raw_items f, cel_slots (af_file s), zlen file_user_data) = (49, 1, 595).
Proof. do 2 eexists. split; [vm_compute; reflexivity|]. split; vm_compute; reflexivity. Qed.

(** Two frames with two layers in 64 + 128 bytes. *)
Definition four_slots : bytes :=
  hdr 2 32 1 1 ++ frm [layer_ch 1 0 0 255 []; layer_ch 1 0 0 255 []] ++ frm [].
Example C63_example_slots : exists s, load dbg64 four_slots = Ok s /\
  cel_slots (af_file s) = 4 /\ zlen four_slots = 208.
Proof. eexists. split; [vm_compute; reflexivity|]. split; reflexivity. Qed.

(** ** C64 *)
Theorem C64_write_read : forall c f, cfg_ok c -> wf_file f -> addressable c (enc_file f) ->
  parse_raw_file c (enc_file f) = Ok f.
Proof. exact write_read. Qed.
Print Assumptions C64_write_read.

(** The well formed files are exactly those the parser can return (when no
    properties area was kept as an error). *)
Theorem C64_range : forall c f, cfg_ok c ->
  (wf_file f /\ addressable c (enc_file f) <->
   no_map_error f /\ exists i, is_bytes i /\ addressable c i /\ parse_raw_file c i = Ok f).
Proof. exact parser_range. Qed.
Print Assumptions C64_range.

(** Reading a file and writing it again gives a file of at most the same size
    that reads the same, at the raw level and as a sprite. *)
Theorem C64_read_write : forall c i f, cfg_ok c -> is_bytes i -> addressable c i ->
  parse_raw_file c i = Ok f -> no_map_error f ->
  is_bytes (enc_file f) /\ zlen (enc_file f) <= zlen i /\ parse_raw_file c (enc_file f) = Ok f.
Proof. exact read_write. Qed.
Print Assumptions C64_read_write.
Theorem C64_load : forall c i f, cfg_ok c -> is_bytes i -> addressable c i ->
  parse_raw_file c i = Ok f -> no_map_error f ->
  parse_file c (enc_file f) = parse_file c i /\ load c (enc_file f) = load c i.
Proof. exact load_rewritten. Qed.
Print Assumptions C64_load.

(** A file with a palette, slices with nine patches, tags, a tileset and nested
    user properties. *)
Definition rich : raw_file :=
  {| rw_header := {| h_file_size := 7; h_frames := 2; h_width := 3; h_height := 4;
       h_color_depth := DUnknown 24; h_flags := 1; h_speed := 100; h_transparent_index := 5;
       h_color_count := 6; h_pixel_width := 1; h_pixel_height := 2; h_grid_x := -1; h_grid_y := -32768;
       h_grid_width := 16; h_grid_height := 65535 |};
     rw_frames :=
       [{| rf_duration := 65535; rf_chunks :=
          [ChPalette0004 {| op_packets := [{| pk_entries_to_skip := 3;
             pk_colors := [{| rgb_red := 1; rgb_green := 2; rgb_blue := 3 |}] |}] |};
           ChUserData {| ud_text := Some [0xC3; 0xA9]; ud_color := None;
             ud_properties_maps := Some (inl ([9],
               [PropMap [Prop_ [97] (VVector (VecMixed [VBool true; VInt64 (-5)]));
                         Prop_ [] (VPropertiesMap (PropMap [] 0))] 4294967295])) |};
           ChSlice {| sc_name := [115]; sc_flags := 3; sc_user_data := None;
             sc_slice_keys := [{| sk_frame_number := 0; sk_x := -1; sk_y := 2; sk_width := 3;
               sk_height := 4; sk_pivot := Some {| pv_x := -2147483648; pv_y := 1 |};
               sk_nine_patch := Some {| np_x := 1; np_y := 1; np_width := 1; np_height := 1 |} |}] |};
           ChUnsupported 0x2021; ChPath] |};
        {| rf_duration := 0; rf_chunks :=
          [ChLayer {| lc_flags := 3; lc_layer_type := LTilemap; lc_child_level := 1;
             lc_blend_mode := BUnknown 0; lc_opacity := 9; lc_name := [108]; lc_tileset_index := Some 7;
             lc_user_data := None |};
           ChTags {| tc_tags := [{| tg_from := 0; tg_to := 1; tg_animation_direction := DirUnknown 200;
             tg_animation_repeat := 2; tg_color := [1; 2; 3]; tg_name := []; tg_user_data := None |}] |};
           ChTileset {| ts_id := 1; ts_flags := 34; ts_number_of_tiles := 2; ts_width := 8; ts_height := 8;
             ts_base_index := 1; ts_name := []; ts_external_file := None; ts_tiles := Some [1; 2] |}] |}] |}.
Example C64_example : parse_raw_file dbg64 (enc_file rich) = Ok rich /\ zlen (enc_file rich) = 427.
Proof. split; vm_compute; reflexivity. Qed.
(** A file written by Aseprite: the copy differs (ignored bytes) but is not longer. *)
Example C64_example_file : exists f, parse_raw_file dbg64 file_user_data = Ok f /\
  list_eqb (enc_file f) file_user_data = false /\
  zlen (enc_file f) = 595 /\ parse_raw_file dbg64 (enc_file f) = Ok f.
Proof. eexists. split; [vm_compute; reflexivity|]. split; [|split]; vm_compute; reflexivity. Qed.
