{"id": "C01", "title": "load never panics", "statement": "AsepriteFile::load returns Ok or Err on every byte slice; it never panics, in debug or release builds.", "quantifier": "all byte strings, both build profiles", "why_tests_cant": "The input space is every byte string; a fuzz run samples it and misses narrow boundary values.", "anchors": ["src/loader/mod.rs: AsepriteFile::load", "src/binary/file.rs: parse_file", "src/binary/chunks/user_data.rs: parse_properties_maps"]}
{"id": "C02", "title": "parsing terminates on every input, however deeply nested", "statement": "parse_file terminates on every byte string: every repetition consumes input and the nesting of property values is bounded by the input length.", "quantifier": "all byte strings, all nesting depths and all declared element counts (up to 2^32-1)", "why_tests_cant": "Tests cannot run every nesting depth or every declared count.", "anchors": ["src/binary/chunks/user_data.rs: parse_value, parse_vector, parse_properties_map", "src/binary/raw_frame.rs: parse_frames"]}
{"id": "C03", "title": "scalar fields are little endian two's complement", "statement": "word/dword/short/long/byte (and the 64/128 bit readers) return exactly the little endian (two's complement for signed types) value of the next 1/2/4/8/16 bytes and leave exactly the following bytes; with fewer bytes they return an error.", "quantifier": "all byte strings", "why_tests_cant": "2^32..2^128 values per reader.", "anchors": ["src/binary/scalars.rs: byte, word, short, dword, long, parse_uuid, fixed, parse_point, parse_size, parse_rect, parse_color, parse_rgb"]}
{"id": "C04", "title": "strings are length prefixed valid UTF-8", "statement": "A string field is accepted exactly when its WORD length is followed by that many bytes which are the UTF-8 encoding of a sequence of Unicode scalar values; the returned str is exactly those bytes.", "quantifier": "all byte strings", "why_tests_cant": "Well-formedness of UTF-8 has infinitely many cases (overlong forms, surrogates, truncation at every offset).", "anchors": ["src/binary/scalars.rs: parse_string"]}
{"id": "C05", "title": "header layout", "statement": "parse_header accepts a byte string exactly when it starts with 128 bytes having the magic 0xA5E0 at offset 4 and eight zero bytes at offset 20; every field of Header is the little endian value at its documented offset; the rest of the input is handed on untouched.", "quantifier": "all byte strings", "why_tests_cant": "All 2^1024 headers.", "anchors": ["src/binary/header.rs: parse_header", "src/binary/color_depth.rs: ColorDepth::from"]}
{"id": "C06", "title": "file body is exactly a sequence of frames", "statement": "A raw file parses successfully exactly when the bytes after the header are the concatenation of one or more well-formed frames with nothing left over; the parsed frames are those frames, in order, with their durations.", "quantifier": "all byte strings, any number of frames", "why_tests_cant": "Unbounded number of frames and all possible framing errors.", "anchors": ["src/binary/raw_file.rs: parse_raw_file", "src/binary/raw_frame.rs: parse_frames, parse_rawframe"]}
{"id": "C07", "title": "truncated or over-long files are rejected", "statement": "If a byte string parses, no proper prefix of it parses unless the cut is at a frame boundary (after at least one frame), and no extension of it parses unless the appended bytes are themselves whole frames.", "quantifier": "all files and all cut points / all appended suffixes", "why_tests_cant": "Every cut point of every file.", "anchors": ["src/binary/raw_frame.rs: parse_frames"]}
{"id": "C08", "title": "number of frames agrees with the header", "statement": "A successfully loaded file has exactly header.frames frames.", "quantifier": "all byte strings that load", "why_tests_cant": "Needs all inputs.", "anchors": ["src/binary/raw_file.rs: parse_raw_file", "src/binary/header.rs: Header::frames"]}
{"id": "C09", "title": "chunk framing and forward compatibility", "statement": "A chunk occupies exactly the number of bytes its size field states; chunks of unknown type are reported as Unsupported with their type and skipped; bytes after the last field a chunk parser knows, and bytes in a frame after its last chunk, are ignored.", "quantifier": "all frames, all chunk types and sizes", "why_tests_cant": "All chunk types x sizes x contents.", "anchors": ["src/binary/chunk.rs: parse_chunk, parse_chunks", "src/binary/chunk_type.rs: parse_chunk_type"]}
{"id": "C10", "title": "frame chunk count selection", "statement": "A frame contains as many chunks as its 32-bit count field says, or as the old 16-bit field says when the 32-bit one is 0.", "quantifier": "all frames", "why_tests_cant": "All count combinations.", "anchors": ["src/binary/raw_frame.rs: parse_rawframe"]}
{"id": "C11", "title": "layer chunk decoding", "statement": "A layer chunk decodes exactly according to the documented layout (flags, type, child level, blend mode, opacity, name, and a tileset index exactly for tilemap layers).", "quantifier": "all byte strings", "why_tests_cant": "All chunk contents.", "anchors": ["src/binary/chunks/layer.rs: parse_layer_chunk"]}
{"id": "C12", "title": "cel chunk decoding", "statement": "A cel chunk decodes exactly according to the documented layout for raw, linked, compressed and tilemap cels; the pixel data is the remainder of the chunk; unknown types keep their payload.", "quantifier": "all byte strings", "why_tests_cant": "All chunk contents.", "anchors": ["src/binary/chunks/cel.rs: parse_cel_chunk"]}
{"id": "C13", "title": "tags chunk decoding and non-empty tag ranges", "statement": "A tags chunk decodes exactly according to the documented layout; every tag returned has first frame <= last frame, and a tag with from > to makes parsing fail.", "quantifier": "all byte strings, any number of tags", "why_tests_cant": "All chunk contents.", "anchors": ["src/binary/chunks/tags.rs: parse_tags_chunk, parse_tag"]}
{"id": "C14", "title": "tag ranges lie inside the animation", "statement": "For every tag of a loaded file, both ends of its range are valid indices into frames().", "quantifier": "all byte strings that load", "why_tests_cant": "Needs all inputs.", "anchors": ["src/binary/chunks/tags.rs: parse_tag", "src/loader/mod.rs: AsepriteFile::load"]}
{"id": "C15", "title": "new palette chunk decoding", "statement": "A palette chunk decodes according to the format specification: it contains the entries for the colours from first..=last, and is rejected when an index exceeds 255 or first > last.", "quantifier": "all byte strings", "why_tests_cant": "All chunk contents.", "anchors": ["src/binary/chunks/palette.rs: parse_palette_chunk, parse_palette_entry"]}
{"id": "C16", "title": "old palette chunk decoding", "statement": "An old palette chunk decodes exactly into its packets; a colour count byte of 0 means 256 colours.", "quantifier": "all byte strings, any number of packets", "why_tests_cant": "All chunk contents.", "anchors": ["src/binary/chunks/old_palette.rs: parse_old_palette_chunk, parse_packet"]}
{"id": "C17", "title": "slice chunk decoding", "statement": "A slice chunk decodes exactly according to the documented layout; every key has nine-patch data exactly when flag 1 is set and a pivot exactly when flag 2 is set.", "quantifier": "all byte strings, any number of keys", "why_tests_cant": "All chunk contents.", "anchors": ["src/binary/chunks/slice.rs: parse_slice_chunk, parse_slice_key"]}
{"id": "C18", "title": "user data decoding and property round trip", "statement": "A user data chunk decodes exactly according to the documented layout; any nested property map encoded according to the specification is read back as the same tree, and everything that is accepted is such an encoding.", "quantifier": "all property trees of any depth and width; all byte strings", "why_tests_cant": "Unbounded nesting.", "anchors": ["src/binary/chunks/user_data.rs: parse_user_data_chunk, parse_properties_maps, parse_properties_map, parse_property, parse_value, parse_vector"]}
{"id": "C19", "title": "remaining chunk kinds decode to their documented layout", "statement": "Tileset, external files, colour profile, mask and cel extra chunks decode exactly according to their documented layout.", "quantifier": "all byte strings", "why_tests_cant": "All chunk contents.", "anchors": ["src/binary/chunks/tileset.rs", "src/binary/chunks/external_files.rs", "src/binary/chunks/color_profile.rs", "src/binary/chunks/mask.rs", "src/binary/chunks/cel_extra.rs"]}
{"id": "C20", "title": "unknown codes are preserved", "statement": "For every enumeration with an Unknown(code) variant (blend mode, cel type, colour profile, external file type, animation direction, colour depth, layer type) a code without a named variant is returned as Unknown(code) with that same code.", "quantifier": "all 2^16 (2^8) codes of every enumeration", "why_tests_cant": "A test picks a few codes; the failure hits exactly one code per enum.", "anchors": ["src/binary/blend_mode.rs", "src/binary/chunks/cel.rs: CelType", "src/binary/chunks/color_profile.rs: ColorProfileType", "src/binary/chunks/external_files.rs: ExternalFileType", "src/binary/chunks/tags.rs: AnimationDirection", "src/binary/color_depth.rs", "src/binary/chunks/layer.rs: LayerType"]}
{"id": "C21", "title": "layer flag constants match the format", "statement": "Each LayerFlags constant tests the bit the format specification assigns to it (1,2,4,8,16,32,64).", "quantifier": "all 2^16 flag words", "why_tests_cant": "All flag words.", "anchors": ["src/binary/chunks/layer.rs: LayerFlags"]}
{"id": "C22", "title": "zero copy: every slice points into the input", "statement": "Every name, text and data slice in the parsed file is a contiguous piece of the input byte string.", "quantifier": "all byte strings that parse", "why_tests_cant": "Needs all inputs.", "anchors": ["src/binary/scalars.rs: parse_string", "src/binary/image.rs: Image::data"]}
{"id": "C23", "title": "user data is attached to its owner", "statement": "A layer, cel or slice carries the user data chunk that immediately follows it in its frame, if any; the k-th tag carries the k-th of the user data chunks immediately following its tags chunk; the sprite carries the one following the first such palette chunk of the first frame; no user data chunk is attached twice.", "quantifier": "all sequences of chunks in all frames", "why_tests_cant": "Unbounded chunk sequences.", "anchors": ["src/binary/file.rs: parse_file, next_user_data"]}
{"id": "C24", "title": "cels are indexed by layer", "statement": "In a parsed file every frame has one cel slot per layer; slot k is either empty or holds the last cel of that frame whose layer index is k; a cel whose layer index is not a valid layer index makes parsing fail with LayerIndexOutOfBounds.", "quantifier": "all files", "why_tests_cant": "All frames/layer counts and the off-by-one boundary.", "anchors": ["src/binary/file.rs: parse_file", "src/binary/frame.rs"]}
{"id": "C25", "title": "palette construction", "statement": "For an indexed file, palette entry k is the colour given by the last entry addressing k in file order (new palette chunks if there is any, else 0x0004 chunks, else 0x0011 chunks), fully transparent black if none does, with the alpha of the transparent index forced to 0; files of other colour depths have no palette; an indexed file without palette is rejected.", "quantifier": "all files", "why_tests_cant": "Arbitrary sequences of overlapping palette updates.", "anchors": ["src/binary/palette.rs: create_palette, process_palette_chunks, process_old_palette_chunks"]}
{"id": "C26", "title": "old palettes never index out of bounds", "statement": "Old palette packets that run past index 255 yield Err(IndexOutOfBounds), never a panic; and otherwise succeed.", "quantifier": "all packet sequences", "why_tests_cant": "All sums of skips and counts.", "anchors": ["src/binary/palette.rs: process_old_palette_chunks"]}
{"id": "C27", "title": "images are collected once, in order", "statement": "images contains exactly the image cels of the file, ordered by frame and then layer; image_count is their number.", "quantifier": "all files that load", "why_tests_cant": "Unbounded frames/layers.", "anchors": ["src/loader/mod.rs: AsepriteFile::load"]}
{"id": "C28", "title": "frame cels reference valid images; linked cels share the image", "statement": "Every FrameCel has image_index < image_count and size equal to that image's size; a linked cel has the same image index as the image cel of the same layer in the linked frame; a link to a frame/layer without image, and any tilemap/unknown cel, makes load fail.", "quantifier": "all files", "why_tests_cant": "All link graphs.", "anchors": ["src/loader/mod.rs: AsepriteFile::load"]}
{"id": "C29", "title": "layer_index indexes AsepriteFile::layers", "statement": "FrameCel::layer_index is an index into AsepriteFile::layers of the layer the cel belongs to in the file.", "quantifier": "all files that load", "why_tests_cant": "All mixes of layer types.", "anchors": ["src/loader/mod.rs: FrameCel::layer_index, AsepriteFile::load"]}
{"id": "C30", "title": "high level metadata mirrors the file", "statement": "load keeps header size, frame durations and order, slices, tag names/ranges/directions (repeat 0 becomes None) and name/opacity/blend mode/visibility/type of every normal or group layer in order; frames are as many as in the file.", "quantifier": "all files that load", "why_tests_cant": "Needs all inputs.", "anchors": ["src/loader/mod.rs: AsepriteFile::load, size, tags, layers, frames, slices"]}
{"id": "C31", "title": "load_image buffer contract", "statement": "load_image returns TargetBufferTooSmall and leaves the buffer unchanged when it is shorter than width*height*4; otherwise it keeps the buffer length and never touches bytes past width*height*4.", "quantifier": "all files, image indices and buffers, for images whose size fits a usize (C52 is about the others)", "why_tests_cant": "All sizes.", "anchors": ["src/loader/mod.rs: load_image"]}
{"id": "C32", "title": "load_image decodes pixels by colour depth", "statement": "On success, pixel k of the buffer is the k-th RGBA quadruple, (v,v,v,a) of the k-th grayscale pair, or the palette colour of the k-th index, of the (decompressed) image data.", "quantifier": "all images of all sizes and colour depths", "why_tests_cant": "All images.", "anchors": ["src/loader/mod.rs: load_image, grayscale_to_rgba, indexed_to_rgba"]}
{"id": "C33", "title": "a successful load_image overwrites the whole image area", "statement": "After Ok, the first width*height*4 bytes of the buffer depend only on the file, not on the previous contents of the buffer.", "quantifier": "all files and buffers", "why_tests_cant": "Depends on every short zlib stream.", "anchors": ["src/loader/mod.rs: load_image, decompress"]}
{"id": "C34", "title": "load_image never panics on a valid image index", "statement": "For every loaded file and every index < image_count, load_image returns Ok or Err and does not panic.", "quantifier": "all files, indices and buffers", "why_tests_cant": "All declared sizes x data lengths.", "anchors": ["src/loader/mod.rs: load_image"]}
{"id": "C35", "title": "render_frame composites pixel by pixel", "statement": "After a successful render_frame the pixel at (x,y) is the old pixel blended, in cel order, with exactly those selected, drawable cels that cover (x,y), each contributing its own pixel at (x - origin.x, y - origin.y) with its layer's blend mode and opacity; cels outside the canvas are clipped.", "quantifier": "all files, frames, selections, buffers and all pixel positions, including negative origins", "why_tests_cant": "Unbounded images, cels and offsets.", "anchors": ["src/loader/mod.rs: render_frame"]}
{"id": "C36", "title": "render_frame buffer contract", "statement": "render_frame returns TargetBufferTooSmall with the buffer unchanged when it is shorter than width*height*4; otherwise it keeps the length and never touches bytes past width*height*4; it never indexes out of bounds.", "quantifier": "all files, frames, selections and buffers, for canvases whose size fits a usize (C52 is about the others)", "why_tests_cant": "All sizes and offsets.", "anchors": ["src/loader/mod.rs: render_frame"]}
{"id": "C37", "title": "render_frame never panics on a valid frame index", "statement": "For every loaded file and every valid frame index render_frame returns Ok or Err and does not panic.", "quantifier": "all files, frames, selections, buffers, both build profiles", "why_tests_cant": "All files.", "anchors": ["src/loader/mod.rs: render_frame", "src/loader/blend.rs: blend_mode_to_blend_fn"]}
{"id": "C38", "title": "layer selection semantics", "statement": "Rendering with select_layers(p) draws exactly the cels of layers satisfying p; Visible equals select_layers(|l| l.visible); All equals select_layers(|_| true); a mask entry that is missing counts as false; by-name selection selects exactly the layers with a listed name; selecting nothing leaves the buffer unchanged.", "quantifier": "all files, predicates, masks and name lists", "why_tests_cant": "Quantifies over arbitrary predicates.", "anchors": ["src/loader/mod.rs: LayerSelection::is_selected, select_layers, select_layers_by_name, render_frame"]}
{"id": "C39", "title": "group layers are never drawn and unselected cels have no influence", "statement": "The result of render_frame does not depend on cels of group layers or of unselected layers (not even if their image data is corrupt).", "quantifier": "all files and selections", "why_tests_cant": "Non-interference quantifies over pairs of files.", "anchors": ["src/loader/mod.rs: render_frame"]}
{"id": "C40", "title": "cel opacity takes part in rendering", "statement": "A cel is composited with its own opacity combined with its layer's opacity.", "quantifier": "all files", "why_tests_cant": "Relational over pairs of files.", "anchors": ["src/loader/mod.rs: load, render_frame", "src/binary/chunks/cel.rs: CelChunk::opacity"]}
{"id": "C41", "title": "hidden groups hide their children", "statement": "With LayerSelection::Visible a layer inside an invisible group is not drawn.", "quantifier": "all files", "why_tests_cant": "All layer hierarchies.", "anchors": ["src/loader/mod.rs: load, LayerSelection::Visible", "src/binary/chunks/layer.rs: LayerChunk::child_level"]}
{"id": "C42", "title": "combined_frame_image and its hash", "statement": "combined_frame_image renders exactly like render_frame(Visible); the hash depends only on the cels of the frame, and frames with the same cels have the same hash and the same picture.", "quantifier": "all files and frame indices", "why_tests_cant": "All pairs of frames.", "anchors": ["src/loader/mod.rs: combined_frame_image"]}
{"id": "C43", "title": "8 bit fixed point multiplication and division round correctly", "statement": "mul8(a,b) is the integer nearest to a*b/255 for all bytes, div8(a,b) is a*255/b rounded half up for all a < b; blend8(b,s,o) is b + (s-b)*o/255 rounded to nearest.", "quantifier": "all byte operands", "why_tests_cant": "Universally quantified arithmetic (up to 2^24 operand triples).", "anchors": ["src/loader/blend.rs: mul8, div8, blend8"]}
{"id": "C44", "title": "integer blend modes never overflow, divide by zero or trip an assertion", "statement": "For every pair of colours and every opacity, every blend mode except the four HSL modes returns a colour in debug and in release builds, without panic, and both builds agree.", "quantifier": "all 2^72 combinations of two colours and an opacity, per mode", "why_tests_cant": "2^72 inputs.", "anchors": ["src/loader/blend.rs: normal, merge, blender, blend_channel, soft_light, addition, subtract, ..."]}
{"id": "C45", "title": "normal blending laws", "statement": "Normal blending: an opaque front at opacity 255 replaces the back; a transparent front leaves a non-transparent back unchanged; over a transparent back the front is taken with alpha scaled by opacity; the alpha never decreases below the back's; each channel lies between back and front; opacity 0 leaves a non-transparent back unchanged.", "quantifier": "all colours and opacities", "why_tests_cant": "2^72 inputs.", "anchors": ["src/loader/blend.rs: normal"]}
{"id": "C46", "title": "separable modes compute the documented formula", "statement": "Over an opaque back with an opaque front at opacity 255 each separable mode yields, per channel, its formula (multiply, screen, overlay, darken, lighten, dodge, burn, hard light, difference, exclusion, addition, subtract, divide) with correct rounding, and alpha 255.", "quantifier": "all colours, all modes", "why_tests_cant": "2^48 inputs per mode.", "anchors": ["src/loader/blend.rs"]}
{"id": "C47", "title": "soft light treats the three channels alike", "statement": "Soft light computes each channel from the back's and front's value of that same channel with the same function.", "quantifier": "all colours", "why_tests_cant": "All colours.", "anchors": ["src/loader/blend.rs: soft_light_baseline, blend_soft_light"]}
{"id": "C48", "title": "HSL modes preserve the front's alpha and do not panic", "statement": "Hue, saturation, color and luminosity blending composite with the front's alpha, and return a colour in debug and in release builds.", "quantifier": "all colours and opacities", "why_tests_cant": "Floating point computation on all colours.", "anchors": ["src/loader/blend.rs: hsl_hue_baseline, ..., impl From<&[f64]> for Color"]}
{"id": "C49", "title": "a transparent front changes nothing visible, for every mode", "statement": "For every blend mode, a front pixel of alpha 0 leaves a back pixel of non-zero alpha unchanged, and over a transparent back every mode behaves like normal.", "quantifier": "all modes, colours and opacities", "why_tests_cant": "2^72 inputs.", "anchors": ["src/loader/blend.rs: blender"]}
{"id": "C50", "title": "symmetries of the blend formulas", "statement": "For opaque pixels multiply, screen, darken, lighten, difference and exclusion are symmetric in back and front; overlay is hard light with the roles swapped; a front of the neutral colour (white for multiply, darken, color burn and divide, black for screen, lighten, color dodge, difference, exclusion, addition and subtract) leaves an opaque back unchanged at every front alpha and opacity.", "quantifier": "all byte operands", "why_tests_cant": "Universally quantified.", "anchors": ["src/loader/blend.rs: blend_multiply, blend_screen, blend_overlay, blend_hard_light"]}
{"id": "C51", "title": "property nesting has no fixed bound", "statement": "The recursion depth of the property parser is bounded by a constant independent of the input (so that a small stack suffices).", "quantifier": "all nesting depths", "why_tests_cant": "A test samples a few depths.", "anchors": ["src/binary/chunks/user_data.rs: parse_vector"]}
{"id": "C52", "title": "size arithmetic is exact on every platform", "statement": "The buffer size checks in load_image and render_frame compare against the true width*height*4 for every width and height, on 32 bit and 64 bit targets.", "quantifier": "all widths and heights, both pointer widths", "why_tests_cant": "2^32 sizes; large allocations.", "anchors": ["src/loader/mod.rs: load_image, render_frame"]}
{"id": "C53", "title": "the blend mode does not influence alpha", "statement": "For every separable blend mode the alpha of the result is the alpha normal blending gives for the same pixels and opacity.", "quantifier": "all separable modes, colours and opacities", "why_tests_cant": "2^72 combinations per mode.", "anchors": ["src/loader/blend.rs: blender, merge, normal"]}
{"id": "C54", "title": "opacity 0 changes nothing visible", "statement": "With opacity 0 every separable blend mode leaves a back pixel of non-zero alpha unchanged.", "quantifier": "all separable modes and colours", "why_tests_cant": "2^64 pairs of colours per mode.", "anchors": ["src/loader/blend.rs: blender, merge, normal, blend_channel"]}
{"id": "C55", "title": "blended channels stay in the range of the colours involved", "statement": "Every channel of the result of a separable mode over a non-transparent back lies between the smallest and the largest of the back's value, the front's value and the value of the mode's formula.", "quantifier": "all separable modes, colours and opacities", "why_tests_cant": "2^72 combinations per mode; wrap-around would show at few of them.", "anchors": ["src/loader/blend.rs: blender, merge, blend8, normal"]}
{"id": "C56", "title": "cel z-index takes part in rendering", "statement": "Cels are drawn in the order of layer index plus cel z-index, as the file format prescribes.", "quantifier": "all files", "why_tests_cant": "The repository's test files all have z-index 0.", "anchors": ["src/loader/mod.rs: AsepriteFile::load, render_frame", "src/binary/chunks/cel.rs: CelChunk"]}
{"id": "C57", "title": "release builds compute what debug builds compute", "statement": "For every file, image, frame, target buffer and layer selection: whenever load, load_image, render_frame or combined_frame_image does not panic in a build with overflow checks and debug assertions, the build without them returns the same result.", "quantifier": "all inputs and both pointer widths", "why_tests_cant": "A test run uses one profile; wrap-around shows only for extreme inputs.", "anchors": ["src/loader/mod.rs", "src/loader/blend.rs", "src/binary/chunks/user_data.rs: parse_properties_maps"]}
{"id": "C58", "title": "results do not depend on the pointer width", "statement": "load returns the same result on 32 bit and 64 bit targets for every input that fits in the memory of both; load_image and render_frame return the same results and buffers whenever the buffer sizes of the images and the canvas fit the 32 bit target.", "quantifier": "all files, images, frames, buffers and selections", "why_tests_cant": "Tests run on one target.", "anchors": ["src/binary/scalars.rs: parse_dword_as_usize", "src/binary/chunks/user_data.rs: parse_properties_maps", "src/loader/mod.rs: load_image, render_frame"]}
{"id": "C59", "title": "rendering changes nothing outside the drawn cels", "statement": "Every canvas pixel that no drawn cel of the frame covers keeps the value the target buffer held before render_frame.", "quantifier": "all files, frames, selections, buffers and pixels", "why_tests_cant": "Tests render onto zeroed buffers.", "anchors": ["src/loader/mod.rs: render_frame"]}
{"id": "C60", "title": "opaque normal pixels hide what is below", "statement": "Where a drawn cel of a normal layer of opacity 255 has a pixel of alpha 255, the result does not depend on what the buffer held before; if no later drawn cel covers the position the result is that pixel.", "quantifier": "all files, frames, selections, pairs of buffers and pixels", "why_tests_cant": "Quantifies over pairs of renderings.", "anchors": ["src/loader/mod.rs: render_frame", "src/loader/blend.rs: normal"]}
{"id": "C61", "title": "rendering never makes the canvas more transparent", "statement": "If all drawn layers have separable blend modes, the alpha of no canvas pixel decreases; opaque canvas pixels stay opaque whatever the blend modes.", "quantifier": "all files, frames, selections, buffers and pixels", "why_tests_cant": "Rounding errors or wrap-around would show for few values.", "anchors": ["src/loader/mod.rs: render_frame", "src/loader/blend.rs: blender, normal, merge"]}
{"id": "C62", "title": "layers can be rendered in steps", "statement": "Rendering the selected layers below some index, and then the other selected layers over the result, gives the same buffer (or the same error or panic) as rendering them all at once.", "quantifier": "all files, frames, selections, buffers and split positions", "why_tests_cant": "Depends on the order in which cels are stored and drawn.", "anchors": ["src/loader/mod.rs: render_frame", "src/binary/file.rs: parse_file"]}
{"id": "C63", "title": "the result is not larger than the input pays for", "statement": "The number of frames, chunks, palette entries, slice keys, tags and (nested) property values parse_raw_file returns is at most the size of the input minus the 128 byte header, and the number of cel slots in the frames load returns is at most a constant times the size of the input.", "quantifier": "all inputs, any nesting of properties", "why_tests_cant": "A bound over all inputs; tests use small honest files.", "anchors": ["src/binary/raw_file.rs: parse_raw_file", "src/binary/file.rs: parse_file", "src/binary/chunks/user_data.rs"]}
{"id": "C64", "title": "files can be written and read back", "statement": "There is a writer such that parse_raw_file reads back exactly what was written, for every value parse_raw_file can return (without a kept properties error); writing what was read gives a file that is not longer, and that load cannot tell from the original.", "quantifier": "all raw files: all chunk kinds, any nesting of properties", "why_tests_cant": "Quantifies over all parse results; the crate has no writer to test against.", "anchors": ["src/binary/raw_file.rs: parse_raw_file", "src/binary/chunks/*.rs", "src/loader/mod.rs: AsepriteFile::load"]}
{"id": "C65", "title": "sprites can be written and loaded back", "statement": "For every canvas size, list of normal and group layers, and list of frames with at most one picture per layer (RGBA, grey or with a palette, compressed or not), the file written from them loads: the canvas size, the layers, the durations, and per frame the layers, positions and sizes of the cels are those written, and load_image returns the colours of the pixels written.", "quantifier": "all sprites of less than 2^30 bytes, all target buffers that are large enough, all decompressors that read stored zlib blocks", "why_tests_cant": "Quantifies over all sprites; the crate has no writer to test against.", "anchors": ["src/loader/mod.rs: AsepriteFile::load, load_image, decompress", "src/binary/file.rs: parse_file"]}
{"id": "C66", "title": "damaged compressed images are reported", "statement": "load_image returns DecompressError for a compressed image whose zlib stream has a wrong checksum or does not hold exactly the bytes of the image.", "quantifier": "all files, images in zlib streams of stored blocks, checksums, target buffers", "why_tests_cant": "Tests use intact files only.", "anchors": ["src/loader/mod.rs: load_image, decompress"]}
{"id": "C67", "title": "six bit palettes are widened", "statement": "The components of a 0x0011 palette chunk, which range from 0 to 63, are spread over 0 to 255 in the palette: 63 becomes 255.", "quantifier": "all indexed files with only 0x0011 palettes", "why_tests_cant": "No test file has such a palette.", "anchors": ["src/binary/palette.rs: process_old_palette_chunks", "src/binary/chunks/old_palette.rs: OldPaletteChunk"]}
{"id": "C68", "title": "layer opacity counts only if the header says it is valid", "statement": "If bit 0 of the header flags (layer opacity has valid value) is clear, render_frame draws all layers with opacity 255.", "quantifier": "all files, frames, selections and buffers", "why_tests_cant": "All test files have the flag set.", "anchors": ["src/binary/header.rs: Header::flags", "src/loader/mod.rs: render_frame"]}
{"id": "C69", "title": "transparent index outside background layers", "statement": "In an indexed file a pixel of the transparent index decodes with alpha 0, except in images of the background layer, where it has the alpha of its palette entry.", "quantifier": "all indexed files, images and pixels", "why_tests_cant": "Depends on the combination of layer flags, palette and pixels.", "anchors": ["src/binary/header.rs: Header::transparent_index", "src/binary/palette.rs: create_palette", "src/loader/mod.rs: load_image"]}
{"id": "C70", "title": "what loading uses of the header", "statement": "Two files with the same frames whose headers agree in width, height, colour depth and transparent index load to the same layers, frames, tags, slices and images, and load_image and render_frame give the same results for both.", "quantifier": "all pairs of files, all images, frames, selections and buffers", "why_tests_cant": "Quantifies over pairs of files.", "anchors": ["src/binary/header.rs: parse_header", "src/binary/file.rs: parse_file", "src/loader/mod.rs: AsepriteFile::load, load_image, render_frame"]}
{"id": "C71", "title": "hue, saturation, colour and luminosity follow the published formulas", "statement": "Over an opaque backdrop, an opaque front drawn with one of the four HSL blend modes gives the colour of the W3C formula (SetLum, SetSat, ClipColor) of the two colours, rounded.", "quantifier": "all four modes, all pairs of colours", "why_tests_cant": "2^48 pairs of colours per mode; floating point.", "anchors": ["src/loader/blend.rs: hsl_hue, hsl_saturation, hsl_color, hsl_luminosity, clip_color, set_luminocity, set_saturation, static_sort3_orig"]}
{"id": "C72", "title": "unused chunks can be inserted", "statement": "Inserting chunks that the sprite does not use (unknown types, paths, masks, colour profiles, external files, tilesets, cel extras, each with its user data) into frames, anywhere but directly before user data, changes neither what load returns nor what load_image and render_frame do.", "quantifier": "all pairs of files that differ in this way, all images, frames, selections and buffers", "why_tests_cant": "Quantifies over pairs of files.", "anchors": ["src/binary/file.rs: parse_file", "src/binary/chunks/user_data.rs", "src/loader/mod.rs: AsepriteFile::load"]}
{"id": "C73", "title": "the order of chunks of different kinds does not matter", "statement": "Exchanging neighbouring chunks of different kinds (layers, cels, tags, slices, palettes, others) of a frame, each together with its user data, changes neither what load returns nor what load_image and render_frame do.", "quantifier": "all pairs of files that differ in this way, all images, frames, selections and buffers", "why_tests_cant": "Quantifies over pairs of files.", "anchors": ["src/binary/file.rs: parse_file", "src/loader/mod.rs: AsepriteFile::load"]}
{"id": "C74", "title": "linked cels are abbreviations", "statement": "If a file loads, then so does the file in which linked cels hold the image they link to instead, and render_frame gives the same result for both.", "quantifier": "all pairs of files that differ in this way, all frames, selections and buffers", "why_tests_cant": "Quantifies over pairs of files.", "anchors": ["src/loader/mod.rs: AsepriteFile::load, render_frame", "src/binary/chunks/cel.rs: CelContent::LinkedCel"]}
{"id": "C75", "title": "moving the cels moves the picture", "statement": "If all cels shown in a frame are moved by the same vector, every pixel render_frame writes is moved by that vector, also between canvases of different sizes.", "quantifier": "all pairs of sprites, vectors, frames, selections, buffers and pixels", "why_tests_cant": "Quantifies over pairs of files and all positions, including negative ones.", "anchors": ["src/loader/mod.rs: render_frame"]}
{"id": "C76", "title": "appended frames leave the others alone", "statement": "Adding frames without layers (and, in indexed files, without palettes) at the end of a file changes neither the layers nor the frames, tags, slices and images before them, nor what load_image and render_frame do with them.", "quantifier": "all pairs of files that differ in this way and load, all images, frames, selections and buffers", "why_tests_cant": "Quantifies over pairs of files.", "anchors": ["src/binary/file.rs: parse_file", "src/loader/mod.rs: AsepriteFile::load, load_image, render_frame"]}
{"id": "C77", "title": "compositing with any alpha", "statement": "For every separable blend mode the result of drawing a pixel with any alpha and opacity over a pixel with any alpha is: the alpha of both together, rounded; and the normal composite, moved towards the composite of the mode's colour first by the back's alpha and then by that of both.", "quantifier": "all 14 separable blend modes, all 2^32 backs and fronts, all opacities", "why_tests_cant": "2^72 combinations per mode.", "anchors": ["src/loader/blend.rs: normal, blender, merge"]}
{"id": "C78", "title": "sprites that are written, loaded and rendered look as drawn", "statement": "For every sprite written to a file, render_frame succeeds, and each pixel of the canvas is what painting the frame's pictures one after the other over the buffer gives: those of selected layers that cover the pixel, with the blend mode and opacity of the layer. In particular a single picture that fills the canvas comes out as it was.", "quantifier": "all sprites of less than 2^28 bytes with separable blend modes, all frames, selections, buffers and pixels", "why_tests_cant": "Quantifies over all sprites; the crate has no writer to test against.", "anchors": ["src/loader/mod.rs: AsepriteFile::load, render_frame", "src/loader/blend.rs"]}
{"id": "C79", "title": "normal compositing is accurate", "statement": "The alpha of the result of normal blending is within 1 of the unrounded alpha of source over compositing, and every channel times alpha is within 2 (of 255) of the unrounded value.", "quantifier": "all 2^32 backs and fronts, all opacities", "why_tests_cant": "2^72 combinations.", "anchors": ["src/loader/blend.rs: normal"]}
{"id": "C80", "title": "separable modes composite as in the W3C specification", "statement": "For every separable blend mode every channel times alpha is, up to rounding, that of the W3C compositing formula: source over of the front's colour mixed with the mode's colour, with the alpha of the back as the weight of the latter.", "quantifier": "all 14 separable blend modes, all 2^32 backs and fronts, all opacities", "why_tests_cant": "2^72 combinations per mode.", "anchors": ["src/loader/blend.rs: blender, merge, normal"]}
{"id": "C81", "title": "darkening modes darken, lightening modes lighten", "statement": "Over an opaque back multiply, darken, colour burn and subtract raise no channel; screen, lighten, colour dodge, addition and divide lower none, whatever alpha and opacity the front has. Over any back no channel is above (multiply, darken) or below (screen, lighten, addition) that of normal drawing.", "quantifier": "all 2^32 backs and fronts, all opacities", "why_tests_cant": "2^72 combinations per mode; a rounding error in one of three roundings would be visible only for some of them.", "anchors": ["src/loader/blend.rs: blend_multiply, blend_screen, blend_color_burn, blend_color_dodge, blend_divide, blender, merge, normal"]}
{"id": "C82", "title": "more opacity, more effect", "statement": "For every separable blend mode and pixels of the same colours: a larger product of front alpha and opacity gives no smaller alpha, and over an opaque back the result for the smaller product lies, in each channel, between the back and the result for the larger one.", "quantifier": "all 15 separable modes, all backs and fronts, all pairs of opacities", "why_tests_cant": "Two runs have to be compared, for 2^88 combinations.", "anchors": ["src/loader/blend.rs: normal, blender, merge, mul8"]}
{"id": "C83", "title": "separable modes treat the channels alike", "statement": "For every separable blend mode except soft light (see C47): rearranging the channels of both pixels in the same way, also with repetition, rearranges the result in that way; in particular grey on grey gives grey.", "quantifier": "all modes, pixels, opacities and rearrangements", "why_tests_cant": "Two runs have to be compared, for 2^72 pairs of pixels and opacities.", "anchors": ["src/loader/blend.rs: blender, merge, normal, all separable modes"]}
{"id": "C84", "title": "pictures that do not overlap can be exchanged", "statement": "If the frames of two sprites of the same size, colour depth and palette show the same pictures except that neighbours which do not overlap are exchanged (any number of times), render_frame draws the same, also with HSL modes.", "quantifier": "all files, frames, selections and buffers", "why_tests_cant": "Relates two runs on unbounded inputs.", "anchors": ["src/loader/mod.rs: render_frame"]}
{"id": "C85", "title": "failures say what is wrong with the file", "statement": "Reading a file ends with a failure InvalidFrameSize(n), InvalidChunkSize(n), InvalidFrameRange(a, b), PaletteError or LayerIndexOutOfBounds exactly if, after a well-formed part, there is a frame size n < 4, a chunk size n < 4, a tag from a to b with a > b, a palette chunk with wrong indices, or an index of a layer that does not exist, in whatever frame it is; the error has the values found there.", "quantifier": "all files", "why_tests_cant": "The mistake can be at any of unboundedly many places after any well-formed part.", "anchors": ["src/binary/errors.rs: ParseError", "src/binary/chunk.rs: parse_chunk", "src/binary/raw_frame.rs", "src/binary/scalars.rs: dword_size", "src/binary/chunks/tags.rs: parse_tag", "src/binary/chunks/palette.rs: parse_palette_chunk"]}
{"id": "C86", "title": "other errors name place and reason", "statement": "When a file cannot be read for another reason (end of input, constant missing, invalid UTF-8) the error says which, with the place where reading stopped, in whatever frame it is.", "quantifier": "all files", "why_tests_cant": "The mistake can be at any of unboundedly many places after any well-formed part.", "anchors": ["src/binary/errors.rs: ParseError", "src/binary/raw_frame.rs: parse_frames", "src/binary/header.rs: parse_header"]}
{"id": "C87", "title": "copies render alike", "statement": "If the pictures shown by a frame of one sprite are those of a frame of another, all moved by the same distance, with the same blend modes and opacities and the same decoded pixels (whatever the colour depth, compression and canvas size), the rendered pixels are the same, moved by that distance, where the canvases overlap and the target pixels agree. If instead the colour channels of all pictures are rearranged in one way (for separable modes except soft light), so are the rendered pixels.", "quantifier": "all pairs of files, frames, selections, buffers and positions", "why_tests_cant": "Relates two runs on unbounded inputs.", "anchors": ["src/loader/mod.rs: render_frame, load_image", "src/loader/blend.rs"]}
{"id": "C88", "title": "a sprite without colours renders without colours", "statement": "A sprite of depth grayscale, or with a palette of greys, rendered on a target of greys gives greys only.", "quantifier": "all files, frames, selections and buffers", "why_tests_cant": "2^72 combinations per blend mode and unboundedly many layers.", "anchors": ["src/loader/mod.rs: render_frame", "src/loader/blend.rs: all modes, static_sort3_orig, set_saturation, soft_light_baseline"]}
{"id": "C89", "title": "UTF-8 errors say where the mistake is", "statement": "If a string of the file is not UTF-8, the error has the length of the longest part from its start that is UTF-8, and the length of the longest start of an encoding found then (at least 1), or none if the string ends there; both are determined by the string.", "quantifier": "all byte strings", "why_tests_cant": "Strings of any length with every kind of mistake at every place.", "anchors": ["src/binary/scalars.rs: parse_string", "src/binary/errors.rs: ParseError::Utf8Error", "core::str::from_utf8"]}
{"id": "C90", "title": "different errors have different messages", "statement": "The message of LoadSpriteError::Parse determines the error: kind, recoverable or not, numbers, and the remaining input.", "quantifier": "all pairs of errors", "why_tests_cant": "The errors contain unbounded parts of the input.", "anchors": ["src/loader/mod.rs: load", "src/binary/errors.rs: ParseError"]}
{"id": "C91", "title": "messages are short and printable", "statement": "The text of an error consists of printable ASCII characters only, whatever the file contains, and is of bounded length.", "quantifier": "all files", "why_tests_cant": "The errors contain unbounded parts of the input.", "anchors": ["src/loader/mod.rs: load, LoadSpriteError", "src/binary/errors.rs: ParseError"]}
{"id": "C92", "title": "frames are rendered exactly if every pixel can be", "statement": "render_frame returns a buffer exactly if the target is large enough, every selected cel has an image that can be decoded and a known blend mode, and every pixel of the canvas can be composed (no assertion fails); the buffer is the one that has the composed pixels on the canvas and the old bytes behind it, and no other.", "quantifier": "all files, frames, selections, buffers, debug and release builds", "why_tests_cant": "An equivalence over unbounded inputs; which pixels fail depends on all layers below.", "anchors": ["src/loader/mod.rs: render_frame", "src/loader/blend.rs"]}
{"id": "C93", "title": "what load returns, exactly", "statement": "load succeeds exactly if the bytes are a well-formed file whose palette can be built, whose cels belong to layers and contain or link to images; the sprite (layers, tags, images, frames with their cels, durations) is then determined by the file. It fails exactly with the parser's error, or with the error of the first cel that links to no image or has no image.", "quantifier": "all byte strings, debug and release builds, 32 and 64 bit", "why_tests_cant": "An equivalence over unbounded inputs: nothing else is accepted, nothing else is returned.", "anchors": ["src/loader/mod.rs: load", "src/binary/file.rs: parse_file"]}
{"id": "C94", "title": "files with anything in them can be written and loaded", "statement": "Every raw file with values in the ranges of the format (linked cels, tags, slices, user data, palettes and unused chunks included), written to bytes, is loaded as the sprite it stands for, and can be loaded exactly if its palette can be built, every cel has a layer and an image. Every sprite load returns (without an unreadable properties area) can be obtained in this way.", "quantifier": "all raw files, all sprites, debug and release builds, 32 and 64 bit", "why_tests_cant": "Unbounded inputs with arbitrarily combined chunks.", "anchors": ["src/loader/mod.rs: load", "src/binary/raw_file.rs: parse_raw_file", "src/binary/file.rs: parse_file"]}
{"id": "C95", "title": "errors are displayed with what distinguishes them", "statement": "The texts Display writes for ParseError, PaletteError and LoadImageError differ for different errors.", "quantifier": "all pairs of errors", "why_tests_cant": "The errors contain unbounded parts of the input.", "anchors": ["src/binary/errors.rs: ParseError (strum::Display)", "src/binary/palette.rs: PaletteError", "src/loader/mod.rs: LoadImageError"]}
{"id": "C96", "title": "errors of load_image, exactly", "statement": "load_image returns TargetBufferTooSmall exactly if the buffer is too small; otherwise DecompressError exactly if the decompressor does not reach the end of the stream, InvalidImageData exactly if uncompressed grayscale or indexed data are not of the length the size of the image demands, UnsupportedColorDepth exactly for unknown colour depths. The buffer is unchanged, except that a failed decompression of an RGBA image leaves what was written so far.", "quantifier": "all files, images, buffers and decompressors, debug and release builds, 32 and 64 bit", "why_tests_cant": "An equivalence over unbounded inputs; the buffer after an error is rarely looked at.", "anchors": ["src/loader/mod.rs: load_image, decompress, grayscale_to_rgba, indexed_to_rgba"]}
{"id": "C97", "title": "panics of render_frame, exactly", "statement": "render_frame panics exactly if the buffer is large enough and some selected cel cannot be drawn over what the cels before it leave: its image is uncompressed RGBA of the wrong length, its image cannot be decoded for another reason, its layer has an unknown blend mode, or some pixel fails an assertion. The first such cel decides which panic it is.", "quantifier": "all files, frames, selections, buffers, debug and release builds", "why_tests_cant": "An equivalence over unbounded inputs; which cel is the first to fail depends on all cels below.", "anchors": ["src/loader/mod.rs: render_frame, load_image", "src/loader/blend.rs"]}
{"id": "C98", "title": "the hash of combined_frame_image describes the picture", "statement": "The hash is a u64 computed from the cels of the frame alone; frames with the same picture have the same hash, frames with the same hash have the same picture, in one sprite, in different sprites, and on all platforms.", "quantifier": "all files, pairs of frames and pairs of files", "why_tests_cant": "All pairs of frames; tests run on one platform.", "anchors": ["src/loader/mod.rs: combined_frame_image", "std::collections::hash_map::DefaultHasher"]}
{"id": "C99", "title": "what any file looks like", "statement": "For every well-formed file, frame, selection and buffer: load and then render_frame return a buffer exactly if every cel has a picture (its own or, linked, that of another frame on the same layer), the pictures of the frame can be decoded and the buffer is large enough; the buffer is then the one whose pixels are the pictures that cover them, of the selected layers, composited in order by the published formulas, and which is otherwise unchanged.", "quantifier": "all byte sequences that are files, all frames, selections, buffers, targets and builds; layers of separable blend modes", "why_tests_cant": "Whole pipeline from bytes to pixels, over unbounded inputs.", "anchors": ["src/loader/mod.rs: load, render_frame", "src/binary/file.rs", "src/loader/blend.rs"]}
{"id": "C100", "title": "sharp pictures stay sharp", "statement": "An opaque pixel on an opaque normal layer is shown unchanged if everything above it is transparent there, whatever the blend modes above; where everything is transparent, what the buffer shows stays; and drawing a frame without half transparent pixels a second time changes nothing.", "quantifier": "all files, frames, selections, buffers, positions", "why_tests_cant": "All stacks of layers and all buffer contents.", "anchors": ["src/loader/mod.rs: render_frame", "src/loader/blend.rs: normal, blender"]}
{"id": "C101", "title": "sprites made by the program itself", "statement": "All fields of AsepriteFile are public. For every value of that type, loaded or not: load_image returns the decoded image, or the error or panic that its data, the buffer, the colour depth and the palette call for, and render_frame draws, for each selected cel, its image followed by transparent pixels in lines of the cel's width; it panics exactly if the frame or a drawn cel's image does not exist, an image is larger than its cel or cannot be decoded, a blend mode is unknown or an assertion fails.", "quantifier": "all values of AsepriteFile (sizes addressable), frames, selections, buffers, decompressors, debug and release builds, 32 and 64 bit", "why_tests_cant": "Tests load files; values that no file yields, such as cels of another size than their image, are not tested.", "anchors": ["src/loader/mod.rs: AsepriteFile, FrameCel, load_image, render_frame"]}
{"id": "C102", "title": "changing the public fields of a sprite", "statement": "Setting the visible flags of the layers and rendering with LayerSelection::Visible has the same outcome as rendering with a mask of these flags. A frame depends on its cels, the layers, the images, the palette, the colour depth and the canvas size only: changes of other frames, tags and the rest of the parsed file have no effect on it.", "quantifier": "all values of AsepriteFile, flags, frames, buffers", "why_tests_cant": "Relates two runs on unbounded inputs.", "anchors": ["src/loader/mod.rs: render_frame, LayerSelection, Layer"]}
{"id": "C103", "title": "public helper functions on any values", "statement": "create_palette, called with any header and any frames, never panics: it returns the 256 colours left by the assignments of the palette chunks of the preferred kind, with the transparent entry made transparent, or Missing, Empty or IndexOutOfBounds exactly when there is no palette chunk, no assignment, or a packet past the last colour. RawFrame::cels yields the cel chunks in order; ColorDepth::bpp gives back the number in the file and is eight times pixel_size.", "quantifier": "all headers and frames (numbers in the range of their types), 32 and 64 bit, debug and release", "why_tests_cant": "These functions are public and can be given values that no file yields.", "anchors": ["src/binary/palette.rs: create_palette", "src/binary/raw_frame.rs: cels", "src/binary/color_depth.rs: bpp, pixel_size"]}
{"id": "C104", "title": "the example program of the readme", "statement": "The program of README.md (load, zeroed buffer of width * height * 4 bytes, render frame 0 with the visible layers) never returns an error for a file that can be loaded; if it returns a buffer, this is the picture of frame 0 drawn over transparent black, and exactly the frames with a cel that cannot be decoded or blended make it panic.", "quantifier": "all files, decompressors, debug and release builds, 32 and 64 bit (sizes addressable)", "why_tests_cant": "All files.", "anchors": ["README.md", "src/loader/mod.rs: load, size, render_frame"]}
{"id": "C105", "title": "what any file looks like, with all blend modes", "statement": "Whenever load and render_frame return a buffer, every pixel of it is what stacking the pictures of the frame's cels over the pixel of the given buffer gives, each with the formula of its layer's blend mode, over opaque and transparent backdrops alike; for hue, saturation, colour and luminosity this is the formula the crate uses instead of the published one. In release builds every known mode has a result for every pixel; a debug build gives the same result or panics, the latter only with these four modes.", "quantifier": "all files, frames, selections, buffers, positions and builds", "why_tests_cant": "All pixels of all pictures; floating point arithmetic and wrapping alpha values are involved.", "anchors": ["src/loader/blend.rs", "src/loader/mod.rs: render_frame"]}
{"id": "C106", "title": "debug texts of the loader's errors", "statement": "The Debug text of a LoadSpriteError is its message, unescaped, between quotes, after the name of the variant and the field; it is printable ASCII, and errors with the same Debug text are equal. So are LoadImageErrors with the same Debug text.", "quantifier": "all errors", "why_tests_cant": "All numbers and byte sequences an error can contain.", "anchors": ["src/loader/mod.rs: LoadSpriteError, LoadImageError"]}
{"id": "C107", "title": "room for the pictures", "statement": "A picture that can be shown takes at most a constant number of bytes for each byte of the file. (Holds with 4 for pictures that are not compressed; does not hold for compressed ones: a file of 210 bytes with a canvas of one pixel makes render_frame allocate 16 GiB and succeed, since a compressed stream need not hold all the pixels.)", "quantifier": "all files, images, buffers, decompressors, 32 and 64 bit", "why_tests_cant": "Tests do not use hostile sizes; a bound is a statement about all files.", "anchors": ["src/loader/mod.rs: load_image, render_frame, decompress"]}
{"id": "C108", "title": "compressed pictures, whatever compressed them", "statement": "If the data of a compressed picture begin with a zlib stream (RFC 1950 and 1951: stored, fixed and dynamic blocks in any number, with any codes and repetitions, whatever follows the stream) of as many bytes as the picture's pixels take, then load_image, render_frame and combined_frame_image do exactly what they do for the sprite that holds these pixels without compression. DecompressError is returned exactly if the data do not begin with a stream of at most that many bytes. Data stand for at most one sequence of pixels.", "quantifier": "all sprites, data, zlib streams, buffers, selections, 32 and 64 bit, debug and release; all decompressors that read the streams of the RFCs", "why_tests_cant": "The same pixels have unboundedly many compressed forms; tests contain those of one compressor.", "anchors": ["src/loader/mod.rs: load_image, decompress, render_frame, combined_frame_image"]}
{"id": "C109", "title": "the colour depth does not matter", "statement": "If the pixels of an indexed or greyscale sprite are replaced by the colours they stand for (palette colours, or grey and alpha) in a true colour sprite with the same layers, cels and canvas, then load_image, render_frame and combined_frame_image have the same outcome for both, success, error or panic.", "quantifier": "all sprites with plain images (compressed ones: C108), buffers, frames, selections, 32 and 64 bit, debug and release", "why_tests_cant": "Relates two runs on unbounded inputs; tests contain one indexed file and no greyscale one.", "anchors": ["src/loader/mod.rs: load_image, grayscale_to_rgba, indexed_to_rgba, render_frame"]}
{"id": "C110", "title": "mirrored and turned sprites", "statement": "If left and right, top and bottom, or the two axes of all pictures, of the places of the cels and of the canvas are exchanged, render_frame does the same to the resulting frame: it succeeds whenever it succeeds for the original, and every pixel is the original's pixel at the exchanged position, with all blend modes and with pictures that stick out of the canvas.", "quantifier": "all true colour sprites with plain images (others: C109, C108), frames, selections, buffers, builds", "why_tests_cant": "Relates two runs on unbounded inputs; mistakes at one edge of the canvas only show in one orientation.", "anchors": ["src/loader/mod.rs: render_frame"]}
{"id": "C111", "title": "the error kept for a properties area", "statement": "If a properties area of user data does not start with its maps, the error kept in properties_maps names the first mistake in the area: the bytes from the number or text that is cut off, the position of the first byte that is not UTF-8, or the unknown type code (an Err::Failure; the others are Err::Errors). With this the layout alone determines what parse_raw_file returns for the bytes of a file, the same on all platforms.", "quantifier": "all areas, maps of any depth, files, 32 and 64 bit, debug and release", "why_tests_cant": "Mistakes can be at any depth of unboundedly nested maps and vectors.", "anchors": ["src/binary/chunks/user_data.rs: parse_properties_maps, parse_value, parse_vector"]}
{"id": "C112", "title": "the error for a file is that of its first mistake", "statement": "parse_raw_file, parse_file and load return an error exactly if, read from the front, the file has a mistake, and the error says what the first one is: the bytes from the number, text or other field that is cut off, at the place where it starts; the position of the first byte of a text that is not UTF-8; a frame or chunk size below 4; a wrong magic number; a tag that ends before it starts; the first bad bound of a palette; then a missing or bad palette, a cel of a layer that does not exist, or an image or linked cel that cannot be used. In frames after the first, everything but the wrong sizes, tags and palette bounds is reported as an unexpected end at the start of that frame. The bytes before the mistake are as the layout says.", "quantifier": "all files, chunks of every kind and number, 32 and 64 bit, debug and release", "why_tests_cant": "Each of the many hundred places where a file can end or go wrong has its own error.", "anchors": ["src/binary/raw_file.rs", "src/binary/raw_frame.rs", "src/binary/chunk.rs", "src/binary/chunks/*.rs", "src/binary/file.rs: parse_file", "src/loader/mod.rs: load"]}
{"id": "C113", "title": "what a file looks like, by the published formats alone", "statement": "For every file of the format, and every decompressor that reads exactly the zlib streams of RFC 1950 and 1951: load and render_frame draw a frame exactly if all cels show a picture, and the drawn ones have pixel data (plain data of the right length, or data that begin with a stream of at most that length; with a palette if indexed) and a known blend mode, and the buffer is large enough. Every pixel of the frame is then that of the cels laid over the buffer in order of their layers, with the published formulas; bytes that a short stream leaves out are 0.", "quantifier": "all files, frames, selections, buffers, blend modes, conforming decompressors, 32 and 64 bit; debug and release (debug builds: separable modes for the exact condition)", "why_tests_cant": "Ties the whole pipeline, from file bytes over decompression to pixels, to the published formats for unboundedly many files; tests contain a few files and compare no pixels by formula.", "anchors": ["src/loader/mod.rs: load, load_image, render_frame, decompress", "src/binary/*.rs", "src/loader/blend.rs"]}
{"id": "C114", "title": "where debug builds refuse what release builds draw", "statement": "Hue, saturation, colour and luminosity fail a debug assertion exactly if the backdrop is not transparent, and either the front's alpha is at least 2, or the colour that is given a new luminosity is not grey and that luminosity is above 1 (of 255). A debug build draws a frame exactly if the release build does and, at no pixel, one of these cels meets such a backdrop; the pictures are then the same.", "quantifier": "all pixels, opacities, files, frames, selections, buffers, 32 and 64 bit", "why_tests_cant": "The condition depends on floating point arithmetic for all 2^64 pairs of pixels.", "anchors": ["src/loader/blend.rs: hsl_hue, hsl_saturation, hsl_color, hsl_luminosity, From<&[i32]>, From<&[f64]>", "src/loader/mod.rs: render_frame"]}
{"id": "C115", "title": "many layers composite accurately", "statement": "Rendering layers of mode normal gives, up to a small error that does not depend on the number of layers, what compositing without rounding gives.", "quantifier": "all files, frames, selections, buffers whose drawn cels lie on layers of mode normal, 32 and 64 bit, debug and release", "why_tests_cant": "The errors of single steps are at most 2 and invisible; whether they add up shows only for all numbers of layers.", "anchors": ["src/loader/blend.rs: normal", "src/loader/mod.rs: render_frame"]}
{"id": "C116", "title": "more layers, more alpha", "statement": "Rendering a frame with a selection that contains more layers makes no pixel more transparent.", "quantifier": "all files, frames, buffers, all pairs of selections of which one contains the other, 32 and 64 bit, debug and release", "why_tests_cant": "The result of each layer is rounded and goes into the next; a layer below changes everything that is computed above it.", "anchors": ["src/loader/mod.rs: render_frame, LayerSelection::is_selected", "src/loader/blend.rs: normal, blender, hsl_*"]}
{"id": "C117", "title": "layer opacity can be moved into the pictures", "statement": "If the alpha of every picture is multiplied by the opacity of its layer (rounded to the nearest) and all layers are made opaque, render_frame returns the same for every frame, selection and buffer.", "quantifier": "all true colour sprites with plain pictures (others: C108, C109), loaded or made by the program, frames, selections, buffers, 32 and 64 bit, debug and release", "why_tests_cant": "Opacity enters the blend functions in several places, with rounding each time; that the places agree for all pixels, modes and backdrops cannot be sampled.", "anchors": ["src/loader/blend.rs: normal, blender, blend_channel, hsl_*", "src/loader/mod.rs: render_frame"]}
{"id": "C118", "title": "what does not show can be cut off", "statement": "If transparent pixels and pixels outside the canvas are cut off from pictures, and cels that show nothing on the canvas are left out, every frame that render_frame draws for the original is drawn for the new sprite and looks the same: equal pixels, or transparent ones of any colour, also over buffers that only look the same. Conversely, what can be drawn of the new sprite can be drawn of the original, in release builds and for modes other than hue, saturation, colour and luminosity.", "quantifier": "all sprites of any colour depth, loaded or made by the program, plain or compressed pictures, frames, selections, buffers, 32 and 64 bit, debug and release", "why_tests_cant": "Transparent pixels do change the buffer (colours of transparent pixels) and go through all blend functions; that nothing of it ever becomes visible, whatever lies above, is a statement about all stacks of layers.", "anchors": ["src/loader/mod.rs: render_frame", "src/loader/blend.rs: normal, blender, blend_channel, hsl_*"]}
{"id": "C119", "title": "palettes can be reordered and unused colours changed", "statement": "Two indexed sprites with complete pictures of the same sizes have the same pictures (load_image gives equal results for every index and buffer) exactly if corresponding pixels stand for the same colours in their palettes; the order of the palettes and colours that no pixel uses do not matter. With the same canvas, layers and frames, render_frame and combined_frame_image (hash included) then give equal results too, failures included.", "quantifier": "all indexed sprites with plain pictures, loaded or made by the program, all pairs of palettes, indices, buffers, selections, hashers, 32 and 64 bit, debug and release", "why_tests_cant": "There are infinitely many pairs of palettes and pictures, and the converse (no other palettes give the same pictures) is about all pairs of sprites.", "anchors": ["src/loader/mod.rs: load_image, indexed_to_rgba, render_frame, combined_frame_image"]}
{"id": "C120", "title": "what is not drawn can be deleted", "statement": "With the same canvas size, colour depth and (if indexed) palette, the result of render_frame (failures included) depends on the sequence of the images, origins, sizes, blend modes and opacities of the drawn cels only, not on how layers and images are numbered, which others there are, names, tags or the rest of the file. So a selection can be made permanent: deleting the layers that are not selected, the groups and their cels, renumbering the rest and switching it on, gives a sprite that renders with Visible and with All as the original with the selection.", "quantifier": "all values of AsepriteFile (loaded or not, also with indices out of range), frames, selections, buffers, decompressors, 32 and 64 bit, debug and release", "why_tests_cant": "A statement about pairs of sprites of any size; a dependency on anything else would show only for special values.", "anchors": ["src/loader/mod.rs: render_frame, LayerSelection, select_layers"]}
{"id": "C121", "title": "enlarged sprites", "statement": "If every pixel of all pictures of a true colour sprite is replaced by a block of n x m equal pixels and canvas, origins and sizes are multiplied accordingly, every frame is drawn as before with every pixel replaced by such a block; and the large sprite can be drawn exactly if the small one can.", "quantifier": "all true colour sprites with plain pictures, loaded or made by the program, all factors, frames, selections, buffers, 32 and 64 bit, debug and release", "why_tests_cant": "Positions are clipped, offset and multiplied by strides in 16 and 64 bit arithmetic; an error at any border would show only for special sizes and factors.", "anchors": ["src/loader/mod.rs: render_frame"]}
{"id": "C122", "title": "what lies at a pixel", "statement": "Whether and how a frame is drawn depends only on the list, for every pixel of the canvas, of the pixels shown there by the drawn cels with the blend modes and opacities of their layers (and on whether all drawn cels can be decoded and have known blend modes): two frames, of one sprite or of two, with the same lists are drawn alike over the same buffer, and in frames that are drawn, two pixels with the same list over the same pixel become equal. In particular a picture can be cut into pieces on several layers of the same mode and opacity, in any order, without a change.", "quantifier": "all pairs of sprites of one canvas size, loaded or made by the program, all frames, selections, buffers, cuts, 32 and 64 bit, debug and release", "why_tests_cant": "The pairs range over all layouts of cels that put the same pixels in the same order.", "anchors": ["src/loader/mod.rs: render_frame"]}
{"id": "C123", "title": "lower layers can be merged", "statement": "In a true colour sprite, the layers below any number n can be replaced by one layer of mode normal with the pictures these layers give on an empty canvas: every frame drawn on an empty canvas is what it was before, with any selection of the other layers, failures included.", "quantifier": "all true colour sprites, loaded or made by the program with the cels in the order of the layers, all n, frames, selections, 32 and 64 bit, debug and release", "why_tests_cant": "The sprites, the selections and the modes of the upper layers range over unbounded sets; rounding in the intermediate picture must not differ.", "anchors": ["src/loader/mod.rs: render_frame"]}
{"id": "C124", "title": "a file can be changed in place", "statement": "The data of each image that load returns are a contiguous piece of the file. If any bytes of the same length are written over it, load still succeeds, and its result differs only in the data of this image: frames, cels, layers, tags, palette, slices, user data and the other images are the same. Likewise the origin of each cel of each frame, be it an image or a link, is four bytes of the file, and writing two other 16 bit numbers there moves this cel and changes nothing else; the same holds of the visibility, blend mode and opacity of each layer and of the duration of each frame.", "quantifier": "all files that load, all images, all replacement data of the same length, all cels and positions, 32 and 64 bit, debug and release", "why_tests_cant": "The files and the replacement bytes range over unbounded sets; a replacement can look like any chunk or header, and files can contain cels that later ones hide.", "anchors": ["src/binary/chunks/cel.rs", "src/binary/chunks/layer.rs", "src/binary/raw_file.rs", "src/binary/raw_frame.rs", "src/loader/mod.rs: load"]}
{"id": "C125", "title": "a frame can be repeated by links", "statement": "For each frame of a file that loads, a frame of linked cels, one at the place of each of its cels and linked to the frame that holds the image, can be written at the end of the file, with any duration. The file still loads; the new frame comes last and has the cels of the repeated one, so that it renders and hashes alike with any layers and buffer; images, layers, tags, slices, palette and the other frames are the same. There are such links for every frame, also for one that links itself, in files of up to 65536 frames.", "quantifier": "all files that load, all frames and durations, provided that the size of the new frame fits its 32 bit field and the longer file can be addressed, 32 and 64 bit, debug and release", "why_tests_cant": "The files range over an unbounded set; the repeated frame may mix images and links, lie before or after the frames it links to, and the file has layers in any frames.", "anchors": ["src/binary/file.rs: parse_file", "src/loader/mod.rs: load, render_frame, combined_frame_image"]}
{"id": "C126", "title": "a frame can be rendered first and drawn later", "statement": "If all drawn layers of a frame have mode normal, rendering the frame on an empty canvas and putting the result on a background by mode normal gives almost the same as rendering it on that background: for each pixel where n pictures lie, alphas differ by at most 2n+1 and channels times alpha by at most 5n+2; if each of the pictures has at least alpha t there (as a fraction of opaque), by at most 2/t+1 and 5/t+2, however many there are. Where at most one picture lies there is no difference, except in the colour of pixels that are wholly transparent either way. With two pictures a difference does occur.", "quantifier": "all files that load, all frames, layer selections, backgrounds, pixels and decompressors, 32 and 64 bit, debug and release", "why_tests_cant": "Tests compare a few frames on one background; the bound is about rounding errors of any number of layers of any alpha on any background.", "anchors": ["src/loader/mod.rs: render_frame", "src/loader/blend.rs: normal"]}
{"id": "C127", "title": "new layers and pictures can be appended", "statement": "After a file that loads one can write a frame of any duration with new layers (any name, flags, blend mode and opacity) and new pictures (any size and data, compressed or not, on ascending layers, old or new); nothing else of the file has to change. The longer file loads: the new layers come after the old ones, the new images after the old ones, the new frame last, with the pictures where they were put; header, palette, tags, slices and user data are the same. If no layers are added, or all layers of the file are normal ones or groups, the old images and frames load, render and hash as before. With a tilemap layer they need not: a picture that was not drawn is then drawn with the settings of the new layer.", "quantifier": "all files that load, all durations, layers and pictures whose fields fit, provided that the size of the new frame fits its 32 bit field and the longer file can be addressed, 32 and 64 bit, debug and release", "why_tests_cant": "The files, layers and pictures range over an unbounded set; that image indexes and cel slots of all old frames survive a larger layer count is a statement about the whole file.", "anchors": ["src/binary/file.rs: parse_file", "src/loader/mod.rs: load, load_image, render_frame, combined_frame_image"]}
{"id": "C128", "title": "frames can be rearranged, dropped, repeated and played backwards", "statement": "Let a file have the same canvas, colour depth, palette and layers as a file that loads, and let each of its frames correspond to some frame of the other one: same duration, cels at the same places, each with the same image, its own or that of the frame it links to. Then the file loads, and every frame renders, over any target and with any selection, like the frame it is taken from. In particular, a file whose layers and palettes are in one frame can be written backwards: its frames in reverse with the links turned, which gives a file of the same size that loads, with the frames in reverse order. If layers come in several frames this need not be so: the layers change places.", "quantifier": "all files that load, all ways to choose frames (any function from frame numbers to frame numbers), all ways to replace links; backwards: all files of at most 65536 frames, 32 and 64 bit, debug and release", "why_tests_cant": "The files and the choices of frames range over an unbounded set; links are resolved across all frames.", "anchors": ["src/binary/file.rs: parse_file", "src/loader/mod.rs: load, render_frame"]}
{"id": "C129", "title": "rendering does not amplify differences", "statement": "Let two targets have equal alphas and channels that differ by at most d, at every pixel. If the layers drawn have the modes normal, multiply, screen, darken, lighten, hard light, difference, exclusion, addition or subtract, then so do the two pictures drawn over them. For normal, darken and lighten the cels of two files may differ by d as well. If the channels of one target are all at least those of the other and the modes are any of the separable ones but difference and exclusion, then the same holds for the pictures; and if they are not subtract or divide either, then the cels of one file may be lighter than those of the other as well. Overlay, color dodge and divide do amplify differences; difference does not keep the order.", "quantifier": "all files that load, all frames, selections, pairs of targets and d; for two files, all pairs of frames whose cels correspond", "why_tests_cant": "All pairs of backdrops, fronts, alphas and opacities, composed through any number of layers; rounding errors could add up with the number of layers.", "anchors": ["src/loader/blend.rs: normal, multiply, screen, overlay, darken, lighten, color_dodge, color_burn, hard_light, difference, exclusion, addition, subtract, divide", "src/loader/mod.rs: render_frame"]}
{"id": "C130", "title": "the same colours in other palette chunks", "statement": "Palette chunks of any kind may be exchanged for others that give the same palette: the file loads to the same sprite, with the same user data, or fails in the same way. Beside a new palette chunk (0x2019), the contents of old ones (0x0004, 0x0011) do not matter. Every palette chunk of an indexed file can be replaced by one new chunk that lists the 256 colours of the loaded palette; or, if every colour but the transparent one is opaque or not set, by one old chunk of at most 256 packets. Files without new palette chunks have palettes of this kind only.", "quantifier": "all files that load or fail to load, all palettes, all ways to exchange palette chunks; for the written files all indexed files whose user data is readable and whose frames stay below 2^32 bytes", "why_tests_cant": "Palettes are accumulated over all chunks of all frames, with packets relative to one another; user data depends on the position of palette chunks.", "anchors": ["src/binary/palette.rs: create_palette", "src/binary/chunks/old_palette.rs", "src/binary/chunks/palette.rs", "src/binary/file.rs: parse_file"]}
{"id": "C131", "title": "a file can be cut after any frame", "statement": "Let a file that loads be cut between two frames, such that no layers and (in indexed sprites) no palettes are in the part cut off. If no link of the remaining frames leads to a frame that is cut off, the remaining file loads; otherwise load returns InvalidLinkedCel. If it loads, it has the same size and layers, the first of the tags and slices, and its images and frames are loaded and rendered as before.", "quantifier": "all files that load, all places between frames, all targets and selections", "why_tests_cant": "Files, the number of frames and the links between them are unbounded.", "anchors": ["src/binary/raw_file.rs", "src/loader/mod.rs: load, load_image, render_frame"]}
{"id": "C132", "title": "other colours in the palette change nothing but colours", "statement": "Let the palette chunks of an indexed file that loads be exchanged for others from which a palette can be made. Then the file loads, with the same size, layers, frames, images, tags and slices, and with the new palette. A frame that could be rendered still can be (in debug builds if its blend modes are separable). If the colours with the same numbers have the same alphas, the alphas of the rendered frames are the same; if moreover their channels differ by at most d, so do those of the rendered frames, for the modes normal, darken and lighten; if no colour is darker than before, no rendered pixel is, for all separable modes but difference, exclusion, subtract and divide.", "quantifier": "all indexed files that load, all replacements of their palette chunks, all frames, selections, targets and d", "why_tests_cant": "256 colours of four bytes each, twice, and unbounded frames.", "anchors": ["src/binary/palette.rs: create_palette", "src/loader/mod.rs: load, render_frame", "src/loader/blend.rs"]}
{"id": "C133", "title": "two animations can be joined", "statement": "Let two files load, of the same size and colour depth, with the same palette, layers and number of layer chunks, and with at most 65536 frames together. Write the frames of the first, then frames with the durations and cels of the second, whose links are moved by the number of frames of the first. The file, if addressable, loads, with the size, layers, tags and slices of the first; it has as many frames as both together; its first frames have the durations and renderings of the first, and the others those of the second, for all targets, layer selections and decompressors.", "quantifier": "all pairs of files that load and match, all frames, targets, selections and decompressors", "why_tests_cant": "Pairs of files, with all their links.", "anchors": ["src/loader/mod.rs: load, render_frame", "src/binary/file.rs: parse_file", "src/binary/chunks/cel.rs: parse_cel_chunk"]}
{"id": "C134", "title": "the alphas of a picture do not depend on its colours", "statement": "Take a frame of a sprite (loaded, or made by a program from values of the types of its fields) that is drawn. Under separable blend modes, the alpha of a pixel comes from the alpha of the target there by taking, layer by layer, a + share - both, with share = alpha * opacity / 255 and both = a * share / 255, each rounded to nearest; it is 0 exactly if the target's alpha is 0 and every product of alpha and opacity is below 127.5. For all modes: if two pixels, of the same or of two sprites, have layers of the same alphas and opacities, both separable or both one of hue, saturation, colour and luminosity, and target pixels of the same alpha, then they are drawn with the same alpha, whatever the colours.", "quantifier": "all sprites with types that fit, frames, targets, selections, decompressors and pixels", "why_tests_cant": "All pairs of colours under all modes and stacks of layers of any height.", "anchors": ["src/loader/blend.rs: normal, merge, blend_mode_to_blend_fn", "src/loader/mod.rs: render_frame"]}
{"id": "C135", "title": "a sprite can be cropped", "statement": "Take a file that loads and whose user data was read. Write it again with another width and height in the header and with (dx, dy) subtracted from the positions of all cel chunks, where the new numbers fit their fields. The new file has the length of the old one written again; if a memory can hold it, it loads, with the new size, the same layers, images, palette, tags, slices and sprite user data, and the same frames but for the positions of the cels. If the new canvas lies inside the old one, each frame that could be drawn can be drawn, for the same selection and decompressor, and its pixels are those of the old picture at (x + dx, y + dy), if that held of the targets. The statement about pictures holds too for sprites made by a program.", "quantifier": "all loadable files, offsets, sizes, frames, targets, selections and decompressors", "why_tests_cant": "All files, cuts and blend modes; cels partly outside both canvases.", "anchors": ["src/loader/mod.rs: AsepriteFile::load, render_frame", "src/binary/header.rs: parse_header", "src/binary/chunks/cel.rs: parse_cel_chunk"]}
{"id": "C136", "title": "a sprite can be laid over another", "statement": "Take two files that load, of the same size, colour depth, palette and number of frames, whose user data was read; the first has all its layers in its first frame and the loader drops none of them. Add to each frame of the first file the layer and cel chunks of that frame of the second, with the layer indexes of the cels raised by the number of layers of the first. If there are not more than 65536 layers, each frame's size fits its field and a memory can hold the new file, it loads; its layers are those of the first and then those of the second; size, durations, tags and slices are those of the first; and rendering a frame, for any selection, decompressor and target, is rendering that frame of the first sprite and then that frame of the second on the result, failures included.", "quantifier": "all pairs of such files, frames, targets, selections and decompressors", "why_tests_cant": "All pairs of files; layers that come late, links, all blend modes.", "anchors": ["src/loader/mod.rs: AsepriteFile::load, render_frame", "src/binary/file.rs: parse_file", "src/binary/chunks/cel.rs: parse_cel_chunk"]}
{"id": "C137", "title": "frames can be put on one sheet", "statement": "Let a program put cels of some frames of a sprite, moved to places that do not overlap, into one frame of another sprite with the same layers, pictures, palette and colour depth. If the frames can be drawn and no cel that is drawn leaves the canvas of its frame, the new frame can be drawn, and its picture has the pictures of the frames at their places, for any selection, decompressor and targets that agree there; the other pixels are those of the target. In particular all frames of a file can be put in a row, if the numbers fit their types.", "quantifier": "all sprites of fitting types, places, targets, selections and decompressors", "why_tests_cant": "All sprites, layouts and blend modes.", "anchors": ["src/loader/mod.rs: render_frame, AsepriteFile, Frame, FrameCel (public fields)"]}
{"id": "C138", "title": "changed pixels of the file show only where they are", "statement": "Let a file load, and let the stored pixels of an uncompressed image be overwritten in the file (damaged, or repainted in place). The file still loads with the same frames and layers. A frame that could be drawn can still be drawn (in a debug build: if its drawn layers have separable blend modes), and the new picture differs from the old one only at pixels where a drawn cel shows a changed pixel of this image, for any selection, decompressor and target.", "quantifier": "all files, images, changes, frames, selections, targets and decompressors", "why_tests_cant": "All files and all sets of changed pixels.", "anchors": ["src/loader/mod.rs: AsepriteFile::load, render_frame, load_image", "src/binary/chunks/cel.rs: raw image cels"]}
{"id": "C139", "title": "the time reading takes is linear in the file's length", "statement": "Reading a file (header, frames, chunks, properties) takes at most 5 n + 5 steps for an input of n bytes, in every case: success, error or panic. A step is a call of one of nom's basic parsers, a round of a repetition, or a byte checked for UTF-8. No count, size or nesting in the file makes the reader loop longer.", "quantifier": "all byte strings and build configurations", "why_tests_cant": "A test shows a time for one file; inputs that make a reader slow are the ones nobody wrote.", "anchors": ["src/binary/raw_file.rs: parse_raw_file", "src/binary/raw_frame.rs: parse_frames, parse_rawframe", "src/binary/chunk.rs: parse_chunk, parse_chunks", "src/binary/chunks/user_data.rs: parse_properties_maps, parse_vector, parse_value"]}
{"id": "C140", "title": "functions that nothing calls do what they say", "statement": "parse_blend_mode, public and called by nothing in the crate, reads a little-endian word and returns its blend mode, and fails recoverably on fewer than two bytes. static_sort3, switched off by a constant, returns the places of three channels in ascending order, every place once. static_sort3_orig, used in its stead, returns places of the same values; it names a place twice exactly if r = g <= b or g = b <= r, and agrees with static_sort3 on three different channels.", "quantifier": "all inputs; all channel values", "why_tests_cant": "All inputs and all 2^24 colours; the code is not reachable by loading or rendering a file.", "anchors": ["src/binary/blend_mode.rs: parse_blend_mode", "src/loader/blend.rs: static_sort3, static_sort3_orig, set_saturation"]}
{"id": "C141", "title": "rendering does only what it has to", "statement": "render_frame goes through every pixel of every drawn cel once, calls the blend function at every place of the canvas exactly once for every drawn cel lying there and nowhere else, and loads the image of every drawn cel exactly once, in the order of the cels; images of hidden, unselected or group layers are not loaded. If it fails or panics it has done no more than this. The number of blends is at most the number of drawn cels times the area of the canvas, however large the cels are; the number of loop rounds is the area of the cels, which the canvas does not bound.", "quantifier": "all sprites, selections, targets; all outcomes", "why_tests_cant": "The work done is not visible in the picture (a picture loaded twice, or blended off the canvas, looks the same), and sprites are unbounded.", "anchors": ["src/loader/mod.rs: AsepriteFile::render_frame"]}
{"id": "C142", "title": "the time loading takes is quadratic at most", "statement": "AsepriteFile::load takes at most 13 steps (rounds of its loops, steps of the reader) per byte of the file, plus 5, plus a 512th of the square of the file's length, for every input and every outcome. If loading succeeds, the part that is not linear is three rounds for every place for a cel, a frame having one for every layer. There are files of 128 + 40 n bytes that take 3 n^2 steps.", "quantifier": "all inputs; all outcomes", "why_tests_cant": "The bound holds for all files of all lengths, including hostile ones.", "anchors": ["src/loader/mod.rs: AsepriteFile::load", "src/binary/file.rs: parse_file", "src/binary/palette.rs: create_palette"]}
{"id": "C143", "title": "decoding an image goes through every pixel once", "statement": "load_image takes at most one round of its conversion loops for every pixel of the image, plus one, for every image, target and outcome. If it succeeds on an image whose RGBA size fits usize, it takes exactly one round per pixel for greyscale and indexed files and none for RGBA files.", "quantifier": "all images, targets, configurations and inflaters; all outcomes", "why_tests_cant": "The bound holds whatever the data of an image are, also if their length does not match its size.", "anchors": ["src/loader/mod.rs: AsepriteFile::load_image", "src/loader/mod.rs: grayscale_to_rgba", "src/loader/mod.rs: indexed_to_rgba"]}
{"id": "C144", "title": "the time rendering takes, decoding included", "statement": "Rendering a frame takes one round for every cel of the frame and, for every cel that is drawn, at most one round per line, two per pixel and one more, for every outcome. If it succeeds, it takes exactly one round per cel, one per line and pixel of every drawn cel, and for greyscale and indexed sprites one more per pixel for decoding.", "quantifier": "all sprites (loaded or made by hand), frames, targets, selections and inflaters; all outcomes", "why_tests_cant": "The count is stated for all sprites and holds on all paths, those that panic included.", "anchors": ["src/loader/mod.rs: AsepriteFile::render_frame", "src/loader/mod.rs: AsepriteFile::load_image"]}
{"id": "C145", "title": "pictures stored raw are rendered in time linear in their data", "statement": "If no image of a drawn cel is compressed, rendering a frame of a loaded sprite on a 64-bit target takes at most one round for every cel of the frame, one for every line of a drawn cel and, for the data of its image, one per four bytes (RGBA), two per two bytes (greyscale) or two per byte (indexed), for every outcome. For a file of n bytes that is at most 65535 + 2 n rounds per drawn cel, besides the one per cel.", "quantifier": "all loaded sprites, frames, targets and selections; all outcomes", "why_tests_cant": "The bound holds for all files, also those whose cels claim sizes their data do not fill.", "anchors": ["src/loader/mod.rs: AsepriteFile::render_frame", "src/loader/mod.rs: AsepriteFile::load_image"]}
