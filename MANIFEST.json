{
 "claims": [
  {
   "property": "C01",
   "status": "partial",
   "theorems": [
    "C01_layer_index_refuted",
    "C01_overflow_refuted",
    "C01_panics_partial",
    "C01_release_partial",
    "C01_exactly_partial"
   ],
   "note": "REFUTED: a cel whose layer index equals the layer count panics in every build; a properties area size below 8 overflows in debug builds. Proved: exactly which files panic, in debug and in release builds (C01_exactly_partial)."
  },
  {
   "property": "C02",
   "status": "proved",
   "theorems": [
    "C02_raw_terminates",
    "C02_repetition_cost",
    "C02_elements_consume",
    "C02_load_terminates"
   ],
   "note": "No fuel exhaustion at the raw level; the file level is covered by C01."
  },
  {
   "property": "C03",
   "status": "proved",
   "theorems": [
    "C03_scalars",
    "C03_too_short"
   ],
   "note": ""
  },
  {
   "property": "C04",
   "status": "proved",
   "theorems": [
    "C04_strings",
    "C04_utf8_validation"
   ],
   "note": "Against the RFC 3629 encoding of scalar values."
  },
  {
   "property": "C05",
   "status": "proved",
   "theorems": [
    "C05_header",
    "C05_header_accepted",
    "C05_header_fields"
   ],
   "note": ""
  },
  {
   "property": "C06",
   "status": "proved",
   "theorems": [
    "C06_file_is_frames",
    "C06_accepted"
   ],
   "note": "Which error is kept for a malformed properties area is the parser's own (kept_error); C06_accepted is free of it."
  },
  {
   "property": "C07",
   "status": "proved",
   "theorems": [
    "C07_extension"
   ],
   "note": "C07_extension is an equivalence; reading it from the longer string gives the statement about prefixes."
  },
  {
   "property": "C08",
   "status": "partial",
   "theorems": [
    "C08_frame_count_refuted",
    "C08_frame_count_partial"
   ],
   "note": "REFUTED: header.frames is not checked. Proved: the frames are those of the file body."
  },
  {
   "property": "C09",
   "status": "proved",
   "theorems": [
    "C09_chunk_framing",
    "C09_chunk_size",
    "C09_unknown_chunk",
    "C09_trailing_bytes_ignored"
   ],
   "note": "Cel, cel extra and mask chunks keep the rest of the chunk as data, so 'trailing bytes ignored' does not apply to them."
  },
  {
   "property": "C10",
   "status": "proved",
   "theorems": [
    "C10_frame",
    "C10_chunk_count"
   ],
   "note": ""
  },
  {
   "property": "C11",
   "status": "proved",
   "theorems": [
    "C11_layer"
   ],
   "note": "Enumerated fields are read by the tables of Spec/Format.v, which contain the deviation of C20 (the first unnamed code reads as Unknown(0)); layer flags are kept modulo 128 (C21 says what the constants test)."
  },
  {
   "property": "C12",
   "status": "partial",
   "theorems": [
    "C12_cel",
    "C12_published_partial",
    "C12_published_exchanged",
    "C12_published_refuted"
   ],
   "note": "REFUTED for tilemap cels against the published format (and the field order of cel.rs:63-70): the masks for X and Y flips are exchanged (C12_published_exchanged, C12_published_refuted). Proved for all other cels; C12_cel states the layout as it is read. The strum deviation for code 4 (C20) is part of the layout cel_l."
  },
  {
   "property": "C13",
   "status": "proved",
   "theorems": [
    "C13_tags",
    "C13_tag_ranges",
    "C13_reversed_tag_fails"
   ],
   "note": "The direction is read by the table of Spec/Format.v, with the deviation of C20."
  },
  {
   "property": "C14",
   "status": "partial",
   "theorems": [
    "C14_tag_range_refuted",
    "C14_tag_range_partial"
   ],
   "note": "REFUTED: tag ranges are not compared with the number of frames. Proved: ranges are not empty."
  },
  {
   "property": "C15",
   "status": "partial",
   "theorems": [
    "C15_palette_partial",
    "C15_palette_spec_partial",
    "C15_palette_rejects",
    "C15_palette_refuted"
   ],
   "note": "REFUTED: the code reads palette_size entries instead of last-first+1 (C15_palette_refuted). Proved: exact layout read, agreement when both numbers coincide, and the rejections."
  },
  {
   "property": "C16",
   "status": "proved",
   "theorems": [
    "C16_old_palette"
   ],
   "note": ""
  },
  {
   "property": "C17",
   "status": "proved",
   "theorems": [
    "C17_slice"
   ],
   "note": ""
  },
  {
   "property": "C18",
   "status": "partial",
   "theorems": [
    "C18_user_data",
    "C18_map_error",
    "C18_maps_round_trip",
    "C18_maps_unambiguous",
    "C18_published_partial",
    "C18_published_refuted",
    "C18_nested_refuted"
   ],
   "note": "REFUTED against the published format for maps inside values, which have no key there while the crate reads one: no tree with such a map is read back (C18_published_refuted, C18_nested_refuted). Proved for all trees in the layout the crate reads, which is the published one if there are no maps inside (C18_published_partial)."
  },
  {
   "property": "C19",
   "status": "proved",
   "theorems": [
    "C19_tileset",
    "C19_external_files",
    "C19_color_profile",
    "C19_mask",
    "C19_cel_extra"
   ],
   "note": "Enumerated fields are read by the tables of Spec/Format.v, with the deviation of C20."
  },
  {
   "property": "C20",
   "status": "partial",
   "theorems": [
    "C20_unknown_codes_partial",
    "C20_unknown_codes_refuted"
   ],
   "note": "REFUTED for the first unnamed code of five enumerations, which reads as Unknown(0). Proved for all other codes."
  },
  {
   "property": "C21",
   "status": "partial",
   "theorems": [
    "C21_layer_flags_partial",
    "C21_layer_flags_actual",
    "C21_layer_flags_refuted"
   ],
   "note": "REFUTED for the last three constants (0x16, 0x32, 0x64). Proved for the first four; what the others test is characterised."
  },
  {
   "property": "C22",
   "status": "proved",
   "theorems": [
    "C22_raw_slices",
    "C22_file_slices",
    "C22_sprite_slices"
   ],
   "note": "Raw, parse_file and load level."
  },
  {
   "property": "C23",
   "status": "proved",
   "theorems": [
    "C23_attached",
    "C23_exclusive"
   ],
   "note": ""
  },
  {
   "property": "C24",
   "status": "partial",
   "theorems": [
    "C24_slots",
    "C24_last_cel",
    "C24_no_cel",
    "C24_bad_index_partial",
    "C24_boundary_refuted"
   ],
   "note": "REFUTED at the boundary: a layer index equal to the number of layers panics instead of LayerIndexOutOfBounds. Everything else proved."
  },
  {
   "property": "C25",
   "status": "proved",
   "theorems": [
    "C25_palette",
    "C25_last_wins"
   ],
   "note": "Entries of new palette chunks are numbered from first_color as the code does; C15 says which entries a chunk has."
  },
  {
   "property": "C26",
   "status": "proved",
   "theorems": [
    "C26_old_palette"
   ],
   "note": "Success needs at least one colour; chunks without any are reported as Empty (C25)."
  },
  {
   "property": "C27",
   "status": "proved",
   "theorems": [
    "C27_images"
   ],
   "note": ""
  },
  {
   "property": "C28",
   "status": "proved",
   "theorems": [
    "C28_cels",
    "C28_own_image",
    "C28_linked",
    "C28_loads_iff"
   ],
   "note": ""
  },
  {
   "property": "C29",
   "status": "partial",
   "theorems": [
    "C29_layer_index_refuted",
    "C29_layer_index_partial"
   ],
   "note": "REFUTED when the file has a tilemap or unknown layer. Proved for files with normal and group layers only."
  },
  {
   "property": "C30",
   "status": "proved",
   "theorems": [
    "C30_metadata"
   ],
   "note": ""
  },
  {
   "property": "C31",
   "status": "proved",
   "theorems": [
    "C31_too_small",
    "C31_buffer"
   ],
   "note": "Images whose size in bytes fits a usize (every image on 64 bit targets, C52_64_bit); C52 says what happens to the others on 32 bit targets."
  },
  {
   "property": "C32",
   "status": "proved",
   "theorems": [
    "C32_success",
    "C32_pixels"
   ],
   "note": "Images whose size fits a usize, as for C31."
  },
  {
   "property": "C33",
   "status": "partial",
   "theorems": [
    "C33_stale_refuted",
    "C33_overwritten_partial"
   ],
   "note": "REFUTED: a zlib stream that ends early is accepted for RGBA images and leaves old bytes of the buffer. Proved in all other cases."
  },
  {
   "property": "C34",
   "status": "partial",
   "theorems": [
    "C34_wrong_length_refuted",
    "C34_panics_partial"
   ],
   "note": "REFUTED: uncompressed RGBA data of the wrong length panics in copy_from_slice. Proved: this is the only panic."
  },
  {
   "property": "C35",
   "status": "proved",
   "theorems": [
    "C35_pixels",
    "C35_determined",
    "C35_64_bit"
   ],
   "note": "For canvases and images whose byte size fits a usize: always on 64 bit targets (C35_64_bit); C52 is about the others."
  },
  {
   "property": "C36",
   "status": "proved",
   "theorems": [
    "C36_too_small",
    "C36_buffer"
   ],
   "note": "For canvases and images whose byte size fits a usize (see C52)."
  },
  {
   "property": "C37",
   "status": "partial",
   "theorems": [
    "C37_wrong_length_refuted",
    "C37_unwrap_refuted",
    "C37_unknown_mode_refuted",
    "C37_hue_refuted",
    "C37_panics_partial",
    "C37_success_partial",
    "C37_no_such_frame"
   ],
   "note": "REFUTED in four ways, each with a witness file. Proved: there are no other causes, and which frames can be rendered."
  },
  {
   "property": "C38",
   "status": "proved",
   "theorems": [
    "C38_predicate",
    "C38_same_layers",
    "C38_visible",
    "C38_all",
    "C38_short_mask",
    "C38_by_name",
    "C38_nothing"
   ],
   "note": ""
  },
  {
   "property": "C39",
   "status": "proved",
   "theorems": [
    "C39_only_drawn",
    "C39_groups"
   ],
   "note": "Stated for two files: same header, palette and drawn cels, same result."
  },
  {
   "property": "C40",
   "status": "partial",
   "theorems": [
    "C40_ignored_refuted",
    "C40_no_effect_refuted"
   ],
   "note": "REFUTED: a cel's opacity has no effect on rendering, for any file."
  },
  {
   "property": "C41",
   "status": "partial",
   "theorems": [
    "C41_hidden_group_refuted",
    "C41_no_effect_refuted"
   ],
   "note": "REFUTED by a witness file."
  },
  {
   "property": "C42",
   "status": "proved",
   "theorems": [
    "C42_combined",
    "C42_same_cels"
   ],
   "note": "The hasher is a parameter."
  },
  {
   "property": "C43",
   "status": "partial",
   "theorems": [
    "C43_mul8",
    "C43_div8",
    "C43_blend8_refuted",
    "C43_blend8_partial"
   ],
   "note": "REFUTED for blend8: falling steps whose product is 128 modulo 255 are rounded up, 1/510 beyond a half. Proved for mul8 and div8, and for blend8 in all other cases."
  },
  {
   "property": "C44",
   "status": "proved",
   "theorems": [
    "C44_total"
   ],
   "note": "Soft light included, although it computes in floating point."
  },
  {
   "property": "C45",
   "status": "proved",
   "theorems": [
    "C45_laws",
    "C45_value"
   ],
   "note": ""
  },
  {
   "property": "C46",
   "status": "proved",
   "theorems": [
    "C46_formula",
    "C46_any_front",
    "C46_determined"
   ],
   "note": "Soft light included; its blue channel is what the code computes from the back alone (C47)."
  },
  {
   "property": "C47",
   "status": "partial",
   "theorems": [
    "C47_blue_refuted",
    "C47_same_blue_partial"
   ],
   "note": "REFUTED: blue is computed from the back's blue twice. Proved for fronts with the back's blue."
  },
  {
   "property": "C48",
   "status": "partial",
   "theorems": [
    "C48_debug_refuted",
    "C48_alpha_refuted",
    "C48_alpha_partial",
    "C48_outcomes_partial"
   ],
   "note": "REFUTED: debug builds panic for fronts of alpha 2 and more, release builds composite with alpha 256 - a. Proved: release builds return a colour."
  },
  {
   "property": "C49",
   "status": "partial",
   "theorems": [
    "C49_transparent_front",
    "C49_transparent_back",
    "C49_hsl_refuted",
    "C49_hsl_partial"
   ],
   "note": "REFUTED for the HSL modes in debug builds (panic). Proved for all other modes, and for HSL modes in release builds."
  },
  {
   "property": "C50",
   "status": "proved",
   "theorems": [
    "C50_symmetric",
    "C50_overlay",
    "C50_neutral"
   ],
   "note": ""
  },
  {
   "property": "C51",
   "status": "partial",
   "theorems": [
    "C51_nesting_refuted",
    "C51_nesting_partial"
   ],
   "note": "REFUTED: depth grows with the input. Proved: it never exceeds the number of bytes."
  },
  {
   "property": "C52",
   "status": "partial",
   "theorems": [
    "C52_64_bit",
    "C52_image_test_partial",
    "C52_32_bit_refuted",
    "C52_canvas_test_partial"
   ],
   "note": "REFUTED on 32 bit targets. Proved on 64 bit targets and whenever the size fits a usize."
  },
  {
   "property": "C53",
   "status": "proved",
   "theorems": [
    "C53_alpha"
   ],
   "note": ""
  },
  {
   "property": "C54",
   "status": "proved",
   "theorems": [
    "C54_opacity_0"
   ],
   "note": ""
  },
  {
   "property": "C55",
   "status": "proved",
   "theorems": [
    "C55_range"
   ],
   "note": "For soft light the blue formula value is that of the back with itself (C47)."
  },
  {
   "property": "C56",
   "status": "partial",
   "theorems": [
    "C56_ignored_refuted"
   ],
   "note": "REFUTED by a witness file; C40_no_effect_refuted shows the z-index never matters."
  },
  {
   "property": "C57",
   "status": "proved",
   "theorems": [
    "C57_load",
    "C57_load_image",
    "C57_render_frame",
    "C57_combined_frame_image"
   ],
   "note": "In the model, debug assertions and overflow checks are the only effects of the profile; C57_differ shows the converse fails."
  },
  {
   "property": "C58",
   "status": "proved",
   "theorems": [
    "C58_load",
    "C58_load_image",
    "C58_render_frame"
   ],
   "note": "The hash of combined_frame_image is not covered: it is computed from usize values."
  },
  {
   "property": "C59",
   "status": "proved",
   "theorems": [
    "C59_outside"
   ],
   "note": "Sizes that fit, as for C35."
  },
  {
   "property": "C60",
   "status": "proved",
   "theorems": [
    "C60_hidden",
    "C60_on_top"
   ],
   "note": "Sizes that fit, as for C35."
  },
  {
   "property": "C61",
   "status": "proved",
   "theorems": [
    "C61_alpha",
    "C61_opaque"
   ],
   "note": "Sizes that fit, as for C35."
  },
  {
   "property": "C62",
   "status": "proved",
   "theorems": [
    "C62_two_steps"
   ],
   "note": "Sizes that fit, as for C35."
  },
  {
   "property": "C63",
   "status": "partial",
   "theorems": [
    "C63_raw",
    "C63_slots",
    "C63_quadratic_partial",
    "C63_square",
    "C63_linear_refuted"
   ],
   "note": "The first half is proved (C63_raw). The second half is REFUTED (C63_square, C63_linear_refuted): the slots are frames times layers, hence quadratic; the quadratic bound is proved (C63_quadratic_partial)."
  },
  {
   "property": "C64",
   "status": "proved",
   "theorems": [
    "C64_write_read",
    "C64_range",
    "C64_read_write",
    "C64_load"
   ],
   "note": "The writer is part of the specification (Spec/Encode.v), not of the crate."
  },
  {
   "property": "C65",
   "status": "proved",
   "theorems": [
    "C65_round_trip",
    "C65_zlib"
   ],
   "note": "For every decompressor that reads stored blocks; Model/Inflate.v is one (C65_zlib)."
  },
  {
   "property": "C66",
   "status": "partial",
   "theorems": [
    "C66_damaged_partial",
    "C66_accepted",
    "C66_short_refuted"
   ],
   "note": "REFUTED: a stream that holds too few bytes is accepted (C66_accepted, C66_short_refuted). Proved for wrong checksums and for too many bytes. The decompressor is Model/Inflate.v, written from the RFCs, not flate2's source."
  },
  {
   "property": "C67",
   "status": "partial",
   "theorems": [
    "C67_six_bit_refuted",
    "C67_white_refuted"
   ],
   "note": "REFUTED: the components are used as they are, so all colours of such a file are below 64 (C67_six_bit_refuted, C67_white_refuted)."
  },
  {
   "property": "C68",
   "status": "partial",
   "theorems": [
    "C68_opacity_refuted"
   ],
   "note": "REFUTED: the flag is not looked at (C68_opacity_refuted, C70_header)."
  },
  {
   "property": "C69",
   "status": "partial",
   "theorems": [
    "C69_transparent_partial",
    "C69_background_refuted"
   ],
   "note": "REFUTED for background layers (C69_background_refuted). Proved: pixels of the transparent index decode with alpha 0 (on all layers)."
  },
  {
   "property": "C70",
   "status": "proved",
   "theorems": [
    "C70_header"
   ],
   "note": ""
  },
  {
   "property": "C71",
   "status": "partial",
   "theorems": [
    "C71_formula_refuted",
    "C71_faint_refuted",
    "C71_channels_partial",
    "C71_black_partial"
   ],
   "note": "REFUTED: an opaque front changes no channel by more than one (C71_faint_refuted), far from the formula (C71_formula_refuted). C71_channels_partial says for all colours which channels are computed (and used with the wrong alpha, C48): the formula with the channels 0..255 clipped to 0..1, times 255, cut off and wrapped, up to 1/1000 before the cut. C71_black_partial: a black backdrop (front for luminosity) gives black."
  },
  {
   "property": "C72",
   "status": "proved",
   "theorems": [
    "C72_insert"
   ],
   "note": "C72_between shows that the exception (before user data) is needed."
  },
  {
   "property": "C73",
   "status": "proved",
   "theorems": [
    "C73_order"
   ],
   "note": ""
  },
  {
   "property": "C74",
   "status": "proved",
   "theorems": [
    "C74_links"
   ],
   "note": "Stated on parse_file for the second file, which may differ from the first in the cels only."
  },
  {
   "property": "C75",
   "status": "proved",
   "theorems": [
    "C75_move"
   ],
   "note": "Sizes that fit, as for C35."
  },
  {
   "property": "C76",
   "status": "proved",
   "theorems": [
    "C76_append"
   ],
   "note": "The longer file is assumed to load; its new frames can have cels that do not."
  },
  {
   "property": "C77",
   "status": "proved",
   "theorems": [
    "C77_composite"
   ],
   "note": "Soft light with the front's blue taken from the back, falling steps as in C43."
  },
  {
   "property": "C78",
   "status": "proved",
   "theorems": [
    "C78_rendered",
    "C78_unique",
    "C78_single"
   ],
   "note": "Separable blend modes. Decompressors as for C65."
  },
  {
   "property": "C79",
   "status": "proved",
   "theorems": [
    "C79_normal"
   ],
   "note": ""
  },
  {
   "property": "C80",
   "status": "partial",
   "theorems": [
    "C80_opaque_partial",
    "C80_weight",
    "C80_refuted"
   ],
   "note": "REFUTED over translucent backs: the mode's colour has the weight ab + (1 - ab) ab s instead of ab (C80_weight, within 4 of 255 for all pixels), which can make a difference of a quarter of the range (C80_refuted). Proved over opaque backs. The application Aseprite composites in the same way."
  },
  {
   "property": "C81",
   "status": "proved",
   "theorems": [
    "C81_darken",
    "C81_lighten",
    "C81_normal"
   ],
   "note": ""
  },
  {
   "property": "C82",
   "status": "proved",
   "theorems": [
    "C82_opacity"
   ],
   "note": ""
  },
  {
   "property": "C83",
   "status": "proved",
   "theorems": [
    "C83_channels"
   ],
   "note": "Soft light is excluded: its blue channel is computed from the back alone, see C47."
  },
  {
   "property": "C84",
   "status": "proved",
   "theorems": [
    "C84_exchange"
   ],
   "note": ""
  },
  {
   "property": "C85",
   "status": "partial",
   "theorems": [
    "C85_chunk_size_refuted",
    "C85_unused_refuted",
    "C85_failure_partial",
    "C85_file_partial",
    "C85_load_partial"
   ],
   "note": "REFUTED for chunk sizes: a chunk size below 4 is reported as InvalidFrameSize; InvalidChunkSize is never returned (C85_chunk_size_refuted, C85_unused_refuted). A layer index equal to the number of layers panics, see C24. Everything else proved as an equivalence."
  },
  {
   "property": "C86",
   "status": "partial",
   "theorems": [
    "C86_reason_refuted",
    "C86_later_partial",
    "C86_cases_partial",
    "C86_header_partial",
    "C86_file_partial"
   ],
   "note": "REFUTED after the first frame: many1 stops at the error and the unread frame is reported as an unexpected end of input, whatever the reason (C86_reason_refuted, C86_later_partial). Proved for the header (equivalence) and the first frame."
  },
  {
   "property": "C87",
   "status": "proved",
   "theorems": [
    "C87_moved",
    "C87_drawn",
    "C87_channels"
   ],
   "note": "C87_drawn says when the copy can be drawn; the other two assume it. Soft light is excluded from the second part, see C47."
  },
  {
   "property": "C88",
   "status": "partial",
   "theorems": [
    "C88_grey_refuted",
    "C88_modes_partial",
    "C88_render_partial"
   ],
   "note": "REFUTED for soft light, hue and saturation: soft light computes blue from the back alone, and for equal channels static_sort3_orig leaves the red channel untouched (C88_grey_refuted). Proved for all other modes, including colour and luminosity, and for whole frames with these modes."
  },
  {
   "property": "C89",
   "status": "proved",
   "theorems": [
    "C89_position",
    "C89_string",
    "C89_unique"
   ],
   "note": "from_utf8 is part of the run-time library; the model follows its source."
  },
  {
   "property": "C90",
   "status": "proved",
   "theorems": [
    "C90_message"
   ],
   "note": "The texts of nom::Err, nom::error::Error and Utf8Error are those of the library's Display and Debug."
  },
  {
   "property": "C91",
   "status": "partial",
   "theorems": [
    "C91_printable_partial",
    "C91_length_refuted",
    "C91_length_partial",
    "C91_load_length_partial"
   ],
   "note": "REFUTED for the length: an error after the first frame lists all bytes from the unreadable frame to the end of the file, at least three characters each (C91_length_refuted). Proved: printable, and at most 5 characters per byte of the file and 100 more, for all errors of parse_file and load."
  },
  {
   "property": "C92",
   "status": "proved",
   "theorems": [
    "C92_exact",
    "C92_possible"
   ],
   "note": ""
  },
  {
   "property": "C93",
   "status": "proved",
   "theorems": [
    "C93_exact",
    "C93_unique",
    "C93_file",
    "C93_refused"
   ],
   "note": ""
  },
  {
   "property": "C94",
   "status": "proved",
   "theorems": [
    "C94_written",
    "C94_usable",
    "C94_range"
   ],
   "note": ""
  },
  {
   "property": "C95",
   "status": "partial",
   "theorems": [
    "C95_details_refuted",
    "C95_kind_partial",
    "C95_palette_partial",
    "C95_image_partial"
   ],
   "note": "REFUTED for ParseError: strum's Display writes the name of the variant only (C95_details_refuted; the text determines exactly the variant, C95_kind_partial). Proved for PaletteError and LoadImageError."
  },
  {
   "property": "C96",
   "status": "proved",
   "theorems": [
    "C96_errors"
   ],
   "note": ""
  },
  {
   "property": "C97",
   "status": "proved",
   "theorems": [
    "C97_panics"
   ],
   "note": ""
  },
  {
   "property": "C98",
   "status": "partial",
   "theorems": [
    "C98_hash",
    "C98_descriptions",
    "C98_same_hash_partial",
    "C98_same_look_refuted",
    "C98_two_sprites_refuted",
    "C98_platform_refuted"
   ],
   "note": "REFUTED in three ways: a picture stored twice has two hashes (C98_same_look_refuted), pictures of two sprites can share one (C98_two_sprites_refuted), and the hash depends on the pointer width (C98_platform_refuted). Proved: what is hashed, that it is a u64, that it determines the cels up to collisions of SipHash, and that frames of one sprite with the same cels look the same."
  },
  {
   "property": "C99",
   "status": "proved",
   "theorems": [
    "C99_frame",
    "C99_unique"
   ],
   "note": "For layers of separable modes (the others: C92, C71)."
  },
  {
   "property": "C100",
   "status": "proved",
   "theorems": [
    "C100_topmost",
    "C100_nothing",
    "C100_again"
   ],
   "note": "The last part is for opaque layers of mode normal (sharp)."
  },
  {
   "property": "C101",
   "status": "proved",
   "theorems": [
    "C101_images",
    "C101_no_image",
    "C101_exact",
    "C101_panics",
    "C101_other",
    "C101_loaded",
    "C101_wide"
   ],
   "note": ""
  },
  {
   "property": "C102",
   "status": "proved",
   "theorems": [
    "C102_visible",
    "C102_depends"
   ],
   "note": ""
  },
  {
   "property": "C103",
   "status": "proved",
   "theorems": [
    "C103_palette",
    "C103_cels",
    "C103_depth"
   ],
   "note": "The exhausted flag of RangeInclusive is not modelled: limits are taken as the two ends."
  },
  {
   "property": "C104",
   "status": "proved",
   "theorems": [
    "C104_loaded",
    "C104_not_loaded",
    "C104_too_large"
   ],
   "note": "Running out of memory is outside the model."
  },
  {
   "property": "C105",
   "status": "proved",
   "theorems": [
    "C105_pixel",
    "C105_frame"
   ],
   "note": "Channels of the four HSL modes up to a thousandth before rounding, as in C71_channels_partial."
  },
  {
   "property": "C106",
   "status": "proved",
   "theorems": [
    "C106_text",
    "C106_load",
    "C106_image",
    "C106_escapes",
    "C106_strings"
   ],
   "note": ""
  },
  {
   "property": "C107",
   "status": "partial",
   "theorems": [
    "C107_plain_partial",
    "C107_compressed_refuted",
    "C107_zlib_refuted"
   ],
   "note": "REFUTED for compressed pictures (C107_compressed_refuted, C107_zlib_refuted); proved with the factor 4 for plain ones (C107_plain_partial)."
  },
  {
   "property": "C108",
   "status": "proved",
   "theorems": [
    "C108_images",
    "C108_frames",
    "C108_damaged",
    "C108_unique",
    "C108_zlib"
   ],
   "note": "Relative to the contracts reads_streams and reads_zlib of the decompressor; Model/Inflate.v meets both (C108_zlib), that flate2 does is not verified."
  },
  {
   "property": "C109",
   "status": "proved",
   "theorems": [
    "C109_converted"
   ],
   "note": ""
  },
  {
   "property": "C110",
   "status": "proved",
   "theorems": [
    "C110_turned",
    "C110_loaded"
   ],
   "note": "Rotations are two exchanges. On canvases and images whose sizes fit the platform (made_fits)."
  },
  {
   "property": "C111",
   "status": "proved",
   "theorems": [
    "C111_file",
    "C111_user_data",
    "C111_mistake",
    "C111_unique"
   ],
   "note": ""
  },
  {
   "property": "C112",
   "status": "proved",
   "theorems": [
    "C112_raw",
    "C112_file",
    "C112_load",
    "C112_unique"
   ],
   "note": "Makes C86 exact: the errors of the first frame are now determined, not only explained."
  },
  {
   "property": "C113",
   "status": "proved",
   "theorems": [
    "C113_drawn",
    "C113_pixels",
    "C113_frame",
    "C113_contract"
   ],
   "note": "Relative to the contracts inflate_ok and reads_zlib of the decompressor; Model/Inflate.v meets both (C113_contract), that flate2 does is not verified. For hue, saturation, colour and luminosity the pixels are described up to a thousandth before the fraction is cut off (C71)."
  },
  {
   "property": "C114",
   "status": "proved",
   "theorems": [
    "C114_pixel",
    "C114_frame"
   ],
   "note": "Makes C48_debug_refuted and C37_success_partial exact for debug builds."
  },
  {
   "property": "C115",
   "status": "partial",
   "theorems": [
    "C115_frame_partial",
    "C115_determined",
    "C115_faint_refuted"
   ],
   "note": "REFUTED: the errors add up; any number of white layers of alpha 1 leaves a pixel of value 1 unchanged, which exactly tends to 255 (C115_faint_refuted). Proved: n layers give an error of at most n in alpha and 2 n in channels times alpha; layers that each contribute an alpha of at least t give at most 1/t and 2/t, whatever their number (C115_frame_partial)."
  },
  {
   "property": "C116",
   "status": "partial",
   "theorems": [
    "C116_more_partial",
    "C116_selections",
    "C116_fewer_refuted"
   ],
   "note": "REFUTED for hue, saturation, colour and luminosity in release builds, which use a wrong alpha over anything but a transparent back (C48): a half transparent layer below an opaque one lowers alpha from 255 to 159 (C116_fewer_refuted). Proved for all other modes."
  },
  {
   "property": "C117",
   "status": "partial",
   "theorems": [
    "C117_baked_partial",
    "C117_hsl_refuted"
   ],
   "note": "REFUTED for hue, saturation, colour and luminosity in release builds, which use a wrong alpha that ignores the opacity (C48; C117_hsl_refuted). Proved for all other modes, with equal panics for unknown modes."
  },
  {
   "property": "C118",
   "status": "proved",
   "theorems": [
    "C118_trimmed",
    "C118_untrimmed"
   ],
   "note": "C118_needed: debug builds can refuse the transparent pixels of mode hue (C49), so the condition of the converse is needed."
  },
  {
   "property": "C119",
   "status": "proved",
   "theorems": [
    "C119_pictures",
    "C119_frames"
   ],
   "note": "About the palette of the loaded sprite, in which the transparent index has alpha 0 (C69): C119_transparent."
  },
  {
   "property": "C120",
   "status": "proved",
   "theorems": [
    "C120_depends",
    "C120_kept"
   ],
   "note": "C120_depends is the general statement, C120_kept the consequence for selections. The hash of combined_frame_image does depend on the numbers (C98)."
  },
  {
   "property": "C121",
   "status": "proved",
   "theorems": [
    "C121_scaled",
    "C121_back"
   ],
   "note": "C121_scaled and, for the other direction, C121_back. Other colour depths by C109, compressed pictures by C108."
  },
  {
   "property": "C122",
   "status": "proved",
   "theorems": [
    "C122_frames",
    "C122_pixel",
    "C122_cut"
   ],
   "note": "C122_frames and C122_pixel; C122_cut for the pieces."
  },
  {
   "property": "C123",
   "status": "proved",
   "theorems": [
    "C123_merged",
    "C123_loaded"
   ],
   "note": "C123_merged; loaded sprites meet its conditions by C123_loaded and C101_loaded. On other canvases it may be wrong (C123_needed)."
  },
  {
   "property": "C124",
   "status": "proved",
   "theorems": [
    "C124_data",
    "C124_place",
    "C124_layer",
    "C124_duration"
   ],
   "note": "C124_data, C124_place, C124_layer and C124_duration."
  },
  {
   "property": "C125",
   "status": "proved",
   "theorems": [
    "C125_held",
    "C125_links"
   ],
   "note": "C125_held; the links it needs exist by C125_links."
  },
  {
   "property": "C126",
   "status": "proved",
   "theorems": [
    "C126_later"
   ],
   "note": "C126_later, with the bounds stated; C126_example shows that the two ways can differ."
  },
  {
   "property": "C127",
   "status": "proved",
   "theorems": [
    "C127_grown",
    "C127_others"
   ],
   "note": "C127_grown, and C127_others for what was there before; C127_tilemap shows that the condition on layers is needed."
  },
  {
   "property": "C128",
   "status": "proved",
   "theorems": [
    "C128_taken",
    "C128_backwards"
   ],
   "note": "C128_taken for any choice of frames, C128_backwards for the reversed file; C128_scattered shows that the condition on layers is needed. The hash of combined_frame_image is not kept: it counts images (C128_example). The reversed file is for at most 65536 frames (links are 16 bit numbers) and no unreadable property maps (which have no encoding)."
  },
  {
   "property": "C129",
   "status": "proved",
   "theorems": [
    "C129_canvas",
    "C129_order",
    "C129_pictures",
    "C129_lighter"
   ],
   "note": "C129_canvas and C129_order for two targets, C129_pictures and C129_lighter for two files. C129_steep, C129_falling, C129_multiplied and C129_subtracted show that the restrictions on modes are needed. Soft light keeps the order (its value is that of the formula, C46, and the formula is increasing); how much it may enlarge differences is not stated."
  },
  {
   "property": "C130",
   "status": "proved",
   "theorems": [
    "C130_recoded",
    "C130_ignored",
    "C130_written",
    "C130_old_colours"
   ],
   "note": "C130_recoded for files and failures, C130_ignored for old chunks beside new ones, C130_written for the replaced file at the level of bytes, C130_old_colours for the converse."
  },
  {
   "property": "C131",
   "status": "proved",
   "theorems": [
    "C131_outcome",
    "C131_frames"
   ],
   "note": "C131_outcome says when the shorter file loads, C131_frames that nothing else is lost. The header still counts the frames cut off, which is not checked (C08)."
  },
  {
   "property": "C132",
   "status": "proved",
   "theorems": [
    "C132_loads",
    "C132_drawable",
    "C132_alpha",
    "C132_within",
    "C132_lighter"
   ],
   "note": "C132_loads gives same_but_palette, the hypothesis of the other theorems, whose palettes are any. C132_dark is a counterexample for the mode difference."
  },
  {
   "property": "C133",
   "status": "proved",
   "theorems": [
    "C133_joined"
   ],
   "note": "Neither file may contain property maps that could not be read (no_map_error): those have no encoding. User data of the cels of the second file, its tags and its slices are not taken over. C133_unmoved: with links left as they were, the example does not load."
  },
  {
   "property": "C134",
   "status": "proved",
   "theorems": [
    "C134_covering",
    "C134_unique",
    "C134_clear",
    "C134_colours"
   ],
   "note": "C134_covering and C134_clear: separable modes. C134_colours: all modes; in debug builds frames with hue, saturation, colour or luminosity layers may panic instead (C48), and the theorem is about frames that are drawn. C134_others: hue and luminosity agree with each other but not with the separable modes."
  },
  {
   "property": "C135",
   "status": "proved",
   "theorems": [
    "C135_file",
    "C135_frames",
    "C135_cropped"
   ],
   "note": "C135_file: files, any offsets. C135_frames: sprites of fitting types, the new canvas inside the old one. C135_cropped: both for loaded files. C135_needed: a position that does not fit its field wraps."
  },
  {
   "property": "C136",
   "status": "proved",
   "theorems": [
    "C136_overlaid",
    "C136_selections"
   ],
   "note": "C136_overlaid: the file and its pictures. C136_selections: all layers, visible layers and masks put one after another are selections of the kind asked for. C136_needed: layers of the first file that come in its second frame."
  },
  {
   "property": "C137",
   "status": "proved",
   "theorems": [
    "C137_sheet",
    "C137_strip"
   ],
   "note": "C137_sheet: any places. C137_strip: all frames of a loaded file in a row, over zeros. C137_needed: a cel that leaves its canvas is seen at the next place."
  },
  {
   "property": "C138",
   "status": "proved",
   "theorems": [
    "C138_damage"
   ],
   "note": "C138_damage: bytes of the file to pixels of every frame. C138_needed: in a compressed image a changed byte can show everywhere."
  },
  {
   "property": "C139",
   "status": "proved",
   "theorems": [
    "C139_steps"
   ],
   "note": "C139_steps: about Model/Steps.v, the parsers with a count of steps; part of the theorem is that their outcome is that of the model. What load does after parsing is not counted. C139_needed: repetitions of elements that can be empty would not be bounded."
  },
  {
   "property": "C140",
   "status": "proved",
   "theorems": [
    "C140_parse_blend_mode",
    "C140_sort",
    "C140_sort_orig"
   ],
   "note": "C140_parse_blend_mode, C140_sort, C140_sort_orig. C140_visible: what naming a place twice does to a colour (C71 states it for all colours)."
  },
  {
   "property": "C141",
   "status": "proved",
   "theorems": [
    "C141_same",
    "C141_done",
    "C141_bound",
    "C141_unbounded"
   ],
   "note": "C141_same (the counted renderer has the outcome of the model), C141_done, C141_bound; C141_unbounded: a file of 210 bytes with a canvas of one pixel takes 4294836225 rounds for one blend."
  },
  {
   "property": "C142",
   "status": "proved",
   "theorems": [
    "C142_steps",
    "C142_places",
    "C142_square"
   ],
   "note": "C142_steps (all outcomes), C142_places (what is not linear, from both sides), C142_square. Copies of memory, the drop of values and the inside of hash map operations are not counted."
  },
  {
   "property": "C143",
   "status": "proved",
   "theorems": [
    "C143_rounds"
   ],
   "note": "C143_rounds. The time flate2 takes and copies of memory are not counted. The one round more is one that panics at the end of the target."
  },
  {
   "property": "C144",
   "status": "proved",
   "theorems": [
    "C144_steps",
    "C144_loaded"
   ],
   "note": "C144_steps (all outcomes; exact if rendering succeeds and the cels have the sizes of their images), C144_loaded (loaded sprites on 64-bit targets). The time flate2 takes and copies of memory are not counted."
  },
  {
   "property": "C145",
   "status": "proved",
   "theorems": [
    "C145_raw",
    "C145_file"
   ],
   "note": "C145_raw, C145_file (in terms of the length of the file). The examples meet the bound in all colour depths. 64-bit targets only. C141_unbounded shows that compressed images have no such bound."
  }
 ]
}