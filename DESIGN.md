# Formal model of aseprite-loader: design

Written before the proofs and kept current. MANIFEST.json says which theorem settles which property.

## Approach

* The crate is pure, sequential, `forbid(unsafe_code)` Rust: every function is a total Gallina function here.
* `theories/Model` – executable model, one definition per Rust function, each citing file and lines.
* `theories/Spec` – small, independent specifications (byte layouts, UTF-8, rounding, user data ownership,
  canvas). They never call the model's parsers or loops.
* `theories/Proofs` – lemmas. `theories/Properties` – the property theorems only, each closed by
  `exact`, with `Print Assumptions` and a non-vacuity `Example`.
* `theories/Tests` – evaluations of the model on the repository's own test files (tests, not proofs).

### Conventions of the model

* `&[u8]` is `list Z`; the hypothesis `is_bytes` says every element is in 0..255 (what the type `u8` guarantees).
* A Rust result is `Ok a | Err e | Panic p`. Every panic path of the code (index out of bounds, arithmetic
  overflow in debug builds, failed `assert!`/`debug_assert!`, `unwrap` on `Err`, `panic!`,
  `copy_from_slice` length mismatch, division by zero) is an explicit `Panic`.
* `cfg` carries the build profile (`debug`: overflow checks and debug assertions on) and the pointer
  width (`usize_bits`). Machine arithmetic goes through checked operations: out of range is `Panic` in
  debug and wraps in release.
* `&mut` buffers are passed in and returned. Loops are folds over ranges.
* The recursive property parser runs on fuel; running out is a distinguished `Panic PFuel` that is
  proved impossible (C02).
* `nom::Err::Error` and `nom::Err::Failure` are distinguished (`many1` treats them differently).
* Floating point (`f64`) is Coq's `SpecFloat` (IEEE binary64 in plain Gallina, no axioms).
* zlib (`flate2`) and the hasher (`DefaultHasher`) are function parameters (oracles) of the model; the theorems
  hold for every oracle that satisfies the stated contract.

### Per property plan

| Property | Modelled | Proof |
|---|---|---|
| C01 load never panics | whole parser + load | false: `_refuted` witnesses (layer index = layer count; properties size < 8 in debug); exact characterisation of when it panics |
| C02 termination | fuelled property parser, counts | fuel = input length always suffices; nothing else is recursive |
| C03 scalars | all readers | iff with little-endian encoding |
| C04 strings | parse_string + from_utf8 | iff with encoding of scalar values |
| C05 header | parse_header | iff with byte layout |
| C06 body | parse_frames | iff with concatenation of frame encodings |
| C07 truncation | parse_raw_file/parse_file | from C06 by determinism of framing |
| C08 frame count | | false: `_refuted` |
| C09, C10 chunk framing | parse_chunk(s), parse_rawframe | iff with layout |
| C11-C19 chunks | all chunk parsers | iff with layouts; nested induction for properties |
| C20 unknown codes | strum from_repr | false at exactly one code per derived enum: characterisation + `_refuted` |
| C21 layer flags | bitflags constants | `_refuted` for three constants, proved for the others |
| C22 zero copy | | every slice is an infix of the input |
| C23 user data | parse_file loop with peekable iterator | equality with positional specification |
| C24 cels | parse_file | proved, boundary `_refuted` (panic instead of error) |
| C25, C26 palettes | create_palette | refinement to "last write wins" map |
| C27-C30 load | AsepriteFile::load | functional specification |
| C31-C34 load_image | load_image with zlib oracle | buffer specification; C33, C34 `_refuted` with exact conditions |
| C35-C39 render_frame | render_frame | pointwise canvas specification by induction over cels/rows/columns |
| C40, C41, C56 | load/render | `_refuted` (cel opacity, group visibility, z-index ignored) |
| C42 | combined_frame_image with hasher oracle | proved |
| C43-C50 blend | all of blend.rs, floats by SpecFloat | arithmetic (lia/nia), finite sweeps where the domain is finite |
| C51 | parser | `_refuted`: for every n an input with depth n |
| C52 | usize arithmetic | proved for 64 bit, `_refuted` for 32 bit |
| C53-C55 | blend.rs | algebra of `merge`/`normal` for all separable modes |
| C57, C58 | whole crate | debug = release unless the debug build panics; 32 bit = 64 bit when the sizes fit |
| C59-C62 | render_frame | consequences of the pixelwise specification; cels are sorted by layer |
| C63 | parser, load | element counts from the layouts; the cel slots of `load` are quadratic (`_refuted`) |
| C64 | parser, load | a writer in Spec/Encode.v that is a right inverse of the parser |
| C65 | load, load_image | the writer of C64 applied to sprites; stored zlib blocks are read back |
| C66 | load_image, decompressor | exact outcome for every stream of stored blocks; short streams are accepted (`_refuted`) |
| C12, C18 (published), C67-C70 | cel and property parsers, palette, load, render | where the crate's layout differs from the published one: exact relation between both, `_refuted` witnesses; dependence on the header |
| C71 | HSL part of blend.rs | error analysis of the binary64 operations (Proofs/FloatFacts.v, FloatNear.v) against the W3C formulas over the rationals; `_refuted` for the formula itself |
| C72-C76 | parse_file, load, render_frame | relations between two files (Spec/Edits.v): invariance of `spec_outcome` under the change, then of everything computed from it |
| C77 | normal, blender, merge | two-sided characterisation: the published steps determine one pixel, and the blend function returns it |
| C78 | load, render_frame | C65 (loading), C35 (pixel-wise drawing) and C77 put together |
| C79, C80 | normal, blender, merge | rational arithmetic: the result minus the unrounded formula is a polynomial in the rounding errors of the single steps |
| C81-C83 | blend modes | from C77: over opaque backs only the mode's colour counts, and normal drawing is monotone in it; channels commute with every step |
| C84 | render_frame | `composed` (C35) depends only on the pictures shown; at each pixel at most one of two separate pictures counts |
| C85, C86 | errors | position by the layouts of Format.v; each parser's errors are split into `Error`s explained by the bytes read and `Failure`s; `many1` passes on only the latter |
| C87, C88 | copies and greys | induction over the pictures drawn over one pixel, with a map of pixels that commutes with the modes; greys by unfolding each mode |
| C89-C91 | UTF-8 errors and messages | forms of encodings by the lead byte; texts are split at the first character that is not part of a number |
| C92 | render_frame | a failed assertion belongs to one pixel, which then has no `composed` result; buffers with the same pixels are equal |
| C93, C01 (exactly) | load | the layouts determine one sprite; problems are listed in the order of the cels; panics are followed through chunk, frame and file as the errors of C85 are |
| C94 | load, writer | C93 and C64 put together |
| C95 | Display of errors | by cases; the parser's errors show only their kind (`_refuted`) |
| C96 | load_image | case by case over depth and compression, with the length facts of C32 |
| C97 | render_frame | split the cels at the first that panics; the ones before can be drawn (C92), for this one compare each cause with the outcome of its steps |
| C98 | combined_frame_image | with SipHash 1-3 in place of the oracle; records of fixed length, every field in its range (images are not more than bytes of the file); `_refuted` by witness |
| C99 | load, render_frame | C93 for the file, the cels matched one by one with those of the sprite; C92 and C77 for the pixels |
| C100 | render_frame | the composition of a pixel as a fold over the pictures above it; with alpha 0 or 255 each step keeps one of the two pixels |
| C101 | load_image, render_frame on any `AsepriteFile` | the proofs of C32, C92, C96, C97 with the facts about loaded sprites replaced by the ranges of the Rust types (`typed`, Spec/Made.v); the buffer of a cel is the decoded image and zeros |
| C102 | render_frame after a change of public fields | equality of the programs' steps, cel by cel; no hypotheses |
| C103 | create_palette, RawFrame::cels, ColorDepth on any values | the loops of C26 with the ranges of the Rust types instead of those of parsed files |
| C104 | the program of README.md | `usage` (Spec/Usage.v); C92, C97 on a buffer of zeros |
| C105 | C99 (one direction) with all blend modes | C71's `hsl_channels` for any backdrop; `mixed` also mixes alphas |
| C106 | `Debug` of LoadSpriteError, LoadImageError | Model/DebugTexts.v; C90, and no character of a message is escaped |
| C107 | room for pictures | slices of the input (C22) for plain pictures; a 210-byte file for compressed ones, drawn by C92 without evaluating its buffer |
| C108 | compressed pictures, any zlib stream | RFC 1950/1951 as a relation (Spec/Deflate.v); the decompressor of Model/Inflate.v is proved sound and complete for it (Proofs/DeflateFacts.v), then load_image and render_frame are compared with the unpacked sprite |
| C109 | other colour depths | the decoders of C32 on the two images (Spec/Convert.v), then equal load_image results give equal frames |
| C110 | mirrored and turned sprites | pixel by pixel from C101: `stacked` is carried over to the exchanged position |
| C111 | the error kept for a properties area | Spec/Mistakes.v says what the first mistake is; induction on the fuel, both directions at once; replaces the parameter `map_error` of the layout, so the layout of C06 mentions no parser |
| C112 | the error for a file is that of its first mistake | Spec/FirstMistake.v says, per kind of chunk, where reading stops; one lemma per primitive (`told`, `st_*` in Proofs/FirstMistakeProps.v), both directions at once; with C111 and C93 all outcomes of `load` except panics (C01) are given by layouts alone |
| C113 | C99 and C105 without a decompressor and without the program's own error values | `decoded` is `image_colours` for every decompressor with `reads_zlib` (Proofs/ShownProps.v); C111 for the layout, C37 for the condition in release builds |
| C114 | debug assertions of the HSL modes | the error bounds of C71 (`near`, Proofs/HslFacts.v) decide on which side of 255 a channel is: luminosities are multiples of 1/100, so that it is clear by 0.01; then `composed` (C92) for debug and release builds side by side |
| C115 | rounding errors of many normal layers | C79 bounds one step; a step shrinks earlier errors by 1 - strength (`shrink`), so bounds add up linearly or stay below a geometric sum; the counterexample is a fixed point of `normal` (truncating division) and Bernoulli's inequality |
| C116 | selections and alpha | `composed` for both selections side by side; rounded alpha is monotone in the alpha below (`over_alpha_mono`) |
| C117 | opacity in the layer or in the pictures | for separable modes `composite` with alpha a and opacity o is that with round(a o / 255) and 255 (`composite_faded`); then the cels of both sprites side by side (`stacked`, C101) |
| C118 | what does not show | pixels related by `same_look` stay related under every blend function (C49), also if one side skips a transparent front; `simulated_frames` lifts this from pixels to frames |
| C119 | palettes | both sides of `load_image` are `index_rgba` of the palettes (C32), which is injective up to `same_colour`; frames by `render_same` of C109 |
| C120 | what is not drawn | `render_frame` is a fold over `drawings` with a function of canvas, depth and palette; `kept` has the same drawings |
| C121 | enlarged sprites | `placed_frames`: if every pixel of one canvas has a place on another with the same stack of pictures, frames agree; used with `x / n` and `n * x` |
| C122 | what lies at a pixel; pictures in pieces | `stacked` factors through the list of what lies at the pixel (`stacked_lying`); with `made_exactly` |
| C123 | lower layers can be merged | `render_frame` is a fold over drawings (C120); the drawing of the merged picture gives the picture (`base_drawn`) |
| C124 | a file can be changed in place | from C93 (`load` is exactly the format relation): one chunk of the raw file is replaced, `change` in PatchProps, `change_layer` in PatchMore |
| C125 | a frame can be repeated by links | from C93: a frame is appended to the raw file; the cels of a frame are sorted by layer, so they are their own slots (`slots_sorted`) |
| C126 | a frame can be rendered first and drawn later | from C115: exact compositing is linear in the background (`exact_alpha_through`, `exact_channel_through`), and one more step of mode normal |
| C127 | new layers and pictures can be appended | from C93 as C125; cels depend on the layer count only by their slots (`filled_slots`), the images of old frames come first (`image_cels_filled`) |
| C128 | frames can be rearranged, dropped, repeated and played backwards | as C74, with the frame number of the image a link resolves to (`taken`); backwards by the writer of C64, whose output keeps its size |
| C129 | rendering does not amplify differences | per channel the blend functions are monotone and 1-Lipschitz including rounding (`div255`, `mul_un8`); lifted pixel by pixel through `composed`; soft light is increasing because its formula is |
| C130 | the same colours in other palette chunks | as C72: the parts of a file other than the palette do not change; the assignments of one chunk, repeated, are those of the chunk; writer of C64 |
| C131 | a file can be cut after any frame | the converse of C76: problems of the shorter file are links to missing frames |
| C132 | other colours in the palette change nothing but colours | files with exchanged palette chunks load alike; alphas, distances and order of the colours carry over to frames (C129, C130) |
| C133 | two animations can be joined | the joined file can be written (C64) and loads; each frame renders as the frame it comes from, with links that moved along |
| C134 | the alphas of a picture do not depend on its colours | alpha of one blend step in terms of alphas, along what lies at a pixel (C122) |
| C135 | a sprite can be cropped | the written file parsed again (C64), the loader's steps on moved cels, pixels by what is stacked there (C101) |
| C136 | a sprite can be laid over another | the written file parsed again (C64), slots of the two files side by side, the cels of a frame drawn one after another |
| C137 | frames can be put on one sheet | pixels by what is stacked there (C101); cels of other places cover nothing |
| C138 | changed pixels of the file show only where they are | the changed file by C124, then pixel by pixel (exact pictures) |
| C139 | the time reading takes is linear in the file's length | Model/Steps.v counts; amortised: every read earns five steps per byte, inner slices are paid by the level above |
| C140 | functions that nothing calls do what they say | comparisons of small integers as floats (HslFacts); by cases |
| C141 | rendering does only what it has to | Model/Work.v records; the record is a prefix of a list of events per cel and pixel, then counting |
| C142 | the time loading takes is quadratic at most | Model/LoadSteps.v counts; every stage is bounded by the chunks, tags and palette entries of the raw file, which its length bounds |
| C143 | decoding an image goes through every pixel once | Model/ImageWork.v counts; every round writes four bytes at its own place, so that the target bounds the rounds |
| C144 | the time rendering takes, decoding included | Model/RenderSteps.v counts all loops; an upper bound and an exact count are carried through the loops together |
| C145 | pictures stored raw are rendered in time linear in their data | the count of C144; decoding raw data fails unless there are enough of them |

Not expressible here: memory exhaustion, stack overflow as such (C51 shows the unbounded recursion that causes it),
running time (C139 bounds the number of steps of the parsers; C141 counts the rounds, blends and image loads of rendering; C142 those of the later stages of loading, C143 those of decoding an image, C144 all of rendering; the time flate2 takes is not counted).

## Trusted base

* Coq's kernel (8.16.1), including `vm_compute`, which evaluates the finite table of the soft light mode
  (Proofs/SoftLight.v) and the witness files.
* Axioms: none. `Print Assumptions` stands under every property theorem and says "Closed under the global context"
  for each. `coqchk -o` also lists the seven fields of `Coq.ssr.ssrunder.Under_rel`, a module of the standard library
  that is loaded but that no theorem uses.
* The reading of the Rust source: the code is not run. Every definition in `theories/Model` cites file and lines.
* The reading of the libraries the crate calls (next section).
* Spec/Format.v has the layouts as the crate reads them and documents them in its doc comments. Aseprite's
  ase-file-specs.md is not part of the repository; Spec/Published.v states, from knowledge of that document, the two
  layouts known to differ. No theorem outside Properties/Published.v depends on that file.

### What is modelled

| Source | Model |
|---|---|
| src/binary/scalars.rs | Model/Scalars.v (all parsers) |
| src/binary/errors.rs, color_depth.rs, blend_mode.rs, chunk_type.rs and the enumerations of chunks/ | Model/Nom.v, Model/Enums.v |
| src/binary/header.rs | Model/Header.v |
| src/binary/chunks/user_data.rs | Model/UserData.v |
| src/binary/chunks/*.rs (all others), image.rs | Model/Chunks.v |
| src/binary/chunk.rs, raw_frame.rs, raw_file.rs | Model/RawFile.v |
| the same parsers again, with a count of steps (only for C139) | Model/Steps.v; proved to have the same outcomes |
| loading again, with a count of rounds (only for C142) | Model/LoadSteps.v; proved to have the same outcomes; copies of memory, drops and the inside of hash map operations are not counted |
| decoding an image again, with a count of rounds (only for C143) | Model/ImageWork.v; proved to have the same outcomes; flate2 and copies of memory are not counted |
| rendering again, with a count of all rounds (only for C144 and C145) | Model/RenderSteps.v; proved to have the same outcomes; flate2 and copies of memory are not counted |
| rendering again, with a record of loop rounds, blends and loaded images (only for C141) | Model/Work.v; proved to have the same outcomes |
| src/binary/palette.rs | Model/Palette.v |
| src/binary/file.rs, frame.rs | Model/File.v |
| src/loader/blend.rs | Model/Blend.v |
| src/loader/mod.rs | Model/Loader.v, the texts of errors in Model/Messages.v and Model/DebugTexts.v |
| (none: flate2 / miniz_oxide) | Model/Inflate.v, a zlib decompressor written from RFC 1950 and 1951 |
| (none: std's `DefaultHasher`) | Model/Hasher.v, SipHash 1-3 with keys 0; little endian targets |

Library behaviour that is modelled from documentation: nom's `take`, `tag`, `count`, `many1`, `all_consuming`, number
parsers; `str::from_utf8`; `Display` of nom's `Err`, derived `Debug` and `Display` of integers; strum's `from_repr` (a variant with a field is built with the field's default); bitflags'
`from_bits_truncate` and `contains`; `HashMap` as an association list; slices and `Vec` as lists with bounds checks;
`checked_add_signed`; float casts (truncating, saturating); IEEE 754 binary64 by `SpecFloat`.

Library behaviour that is a parameter: flate2's decompressor (`inflater`, contract `inflate_ok`: it writes at
most as many bytes as fit, and bytes) and the hasher (no contract). No axiom is stated about either.
std does not specify the algorithm of `DefaultHasher`; only C98 depends on Model/Hasher.v, which agrees with Python's
SipHash 1-3 on test vectors (Tests/Hashes.v).
C65 adds the contract `reads_stored`, C108 the contracts `reads_streams` (reads every zlib stream) and `reads_zlib` (and
nothing else). `inflate_zlib` in Model/Inflate.v is one decompressor that satisfies all of them (C65_zlib, C108_zlib).
Besides these, only C66, C107_zlib_refuted, C113_contract and the tests depend on it; it models what the RFCs say, not flate2's source.

### What is not modelled

* `Debug` texts of types that are not errors.
* Running out of memory or stack. (`vec![0; n]` beyond `isize::MAX` is modelled as a panic.)
* Lifetimes and borrowing: slices are values. C22 states which pieces of the input they are.
* f32/f64 property values are kept as bit patterns.
* 16 bit targets (`cfg_ok`: 32 or 64 bit pointers) and slices above `isize::MAX` bytes (`addressable`), which Rust
  does not allow.

### Validation against the repository's tests

Tests/RepoTests.v runs the tests of the crate on the model: every image of every test file and every rendered frame
except that of combine.aseprite (too slow) has the Adler-32 checksum a separate Python program computed from the file.
The longer evaluations are `Eval`s at compile time, so `coqchk` does not repeat them.

## Findings

Places where the faithful model violates the property; each has a `_refuted` theorem with a witness.

1. `parse_file` tests `layer_index > layers.len()`; an index equal to the length panics (C01, C24).
2. `parse_properties_maps` computes `size_maps - 8` unchecked: overflow panic in debug builds (C01).
3. `header.frames` is not compared with the number of frames (C08), tag ranges are not checked against it (C14).
4. A palette chunk reads `palette_size` entries, not `last - first + 1` (C15).
5. strum's `from_repr` returns `Unknown(0)` for the first unnamed code of five enumerations (C20).
6. Three constants of `LayerFlags` are written in hexadecimal (0x16, 0x32, 0x64) instead of decimal (C21).
7. Tilemap layers are dropped from the layer list but cels keep their old layer index (C29).
8. `load_image`: a zlib stream that ends early leaves old bytes in an RGBA target (C33); uncompressed RGBA data of the wrong
   length panics (C34).
9. `render_frame` panics on images that `load_image` rejects, on unknown blend modes and, in debug builds, on the HSL modes
   (C37).
10. Cel opacity, cel z-index and the visibility of groups have no effect on rendering (C40, C41, C56).
11. `blend8` rounds falling steps wrongly when the product is 128 modulo 255 (C43).
12. Soft light computes blue from the back alone (C47).
13. The HSL modes work on 0..255 values where 0..1 is expected, and alpha is scaled by 255 again (C48, C49). An opaque
    front therefore changes an opaque backdrop by at most one per channel (C71).
14. The recursion of the property parser is as deep as the input is nested (C51).
15. On 32 bit targets `width * height * 4` wraps (release) or panics (debug) (C52).
16. Every frame gets a slot for a cel of every layer of the file: 40 n + 128 bytes of input make n * n slots (C63).
17. The masks for X and Y flips of a tilemap cel are read in the wrong order (C12).
18. A map inside a property value is expected to have a key, which the published format does not have there (C18).
19. Six bit components of 0x0011 palettes are not widened to eight bits (C67).
20. The header flag that says whether layer opacities are valid is not looked at (C68).
21. The transparent index also applies to the background layer (C69).
22. Over translucent backs the colour of a blend mode gets more weight than in the W3C specification (C80).
23. A chunk size below 4 is reported as `InvalidFrameSize`; `InvalidChunkSize` is never used (C85).
24. An error in any frame but the first is reported as an unexpected end of input at the start of that frame (C86).
25. Grey sprites get colours in the modes soft light, hue and saturation (C88). The last two because
    `static_sort3_orig` never picks the first of three equal channels, which then is not set to 0.
26. The message of a parse error contains the remaining input in decimal, up to five characters per byte of the file (C91).
27. `Display` of `ParseError` writes the name of the variant only, without the numbers it holds (C95).
28. The hash of `combined_frame_image` numbers images and layers instead of describing the picture: equal pictures can have
    different hashes and, in two sprites, different pictures equal ones; it depends on the width of `usize` (C98).
29. A cel's declared size is used for allocation before its data is looked at, and a compressed stream may be shorter than the
    picture (finding on short streams, C66): 210 bytes make `render_frame` allocate 16 GiB for a 1x1 canvas (C107).
30. `normal` divides with truncation, so faint layers over opaque ones change nothing, however many there are (C115).  Aseprite's
    formula truncates as well.

## Mutation tests

`seeded/LOG.jsonl` has one line per wrong program tried. In a scratch copy the model is edited and rebuilt; every proof
that fails is replaced by `Admitted` there, and a property theorem counts as failed if its assumptions then are not empty.
`examined` are the property files that were rebuilt: usually those of the claim that should break, not all of them, so
theorems of other files may fail as well without being listed. `survived_before` are files in which an edit broke nothing
when it was first tried. Lines with an empty `failed` have a note that says why (an equivalent program, an edit that does
not type-check, or an inconclusive run).

Most runs had a limit of 240 s for one command, on a busy machine. The systematic runs (claim "systematic") keep the error
message; three of them (M658, M671, M714) stopped at the limit and are marked inconclusive. The other runs do not keep it, so
that a theorem listed as failed there may have hit the limit instead. The systematic runs were stopped before their end, so
the log has no lines for the rest of them, nor for the other edits that were still queued.
