(** Model of src/binary/chunk.rs, raw_frame.rs and raw_file.rs. *)
From Verif.Model Require Export Chunks.

(** chunk.rs:23-40 *)
Inductive chunk :=
| ChPalette0004 (p : old_palette_chunk)
| ChPalette0011 (p : old_palette_chunk)
| ChLayer (l : layer_chunk)
| ChCel (x : cel_chunk)
| ChCelExtra (x : cel_extra_chunk)
| ChColorProfile (x : color_profile_chunk)
| ChExternalFiles (x : external_files_chunk)
| ChMask (x : mask_chunk)
| ChPath
| ChTags (t : tags_chunk)
| ChPalette (p : palette_chunk)
| ChUserData (u : user_data_chunk)
| ChSlice (s : slice_chunk)
| ChTileset (t : tileset_chunk)
| ChUnsupported (t : Z).

(** [Chunk::X(parse(chunk_data)?.1)] *)
Definition just {A} (f : A -> chunk) (r : pres A) : out nom_err chunk :=
  let* (_, a) := r in Ok (f a).

(** chunk.rs:51-69, the [match chunk_type] *)
Definition parse_chunk_data (c : cfg) (t : chunk_type + Z) (d : bytes) : out nom_err chunk :=
  match t with
  | inl TPalette0004 => just ChPalette0004 (parse_old_palette_chunk d)
  | inl TPalette0011 => just ChPalette0011 (parse_old_palette_chunk d)
  | inl TLayer => just ChLayer (parse_layer_chunk d)
  | inl TCel => just ChCel (parse_cel_chunk d)
  | inl TCelExtra => just ChCelExtra (parse_cel_extra_chunk d)
  | inl TColorProfile => just ChColorProfile (parse_color_profile d)
  | inl TExternalFile => just ChExternalFiles (parse_external_files_chunk c d)
  | inl TMask => just ChMask (parse_mask_chunk d)
  | inl TPath => Ok ChPath
  | inl TTags => just ChTags (parse_tags_chunk d)
  | inl TPalette => just ChPalette (parse_palette_chunk c d)
  | inl TUserData => just ChUserData (parse_user_data_chunk c d)
  | inl TSlice => just ChSlice (parse_slice_chunk c d)
  | inl TTileset => just ChTileset (parse_tileset_chunk d)
  | inr t => Ok (ChUnsupported t)
  end.

(** chunk.rs:46-71; [size - 4] is a [u32] subtraction. *)
Definition parse_chunk (c : cfg) : parser chunk := fun input =>
  let* (input, size) := dword_size EInvalidFrameSize input in
  let* n := u32c c (size - 4) in
  let* (rest, input) := take n input in
  let* (chunk_data, chunk_type) := parse_chunk_type input in
  let* chunk := parse_chunk_data c chunk_type chunk_data in
  Ok (rest, chunk).

(** chunk.rs:42-44 *)
Definition parse_chunks (c : cfg) (chunk_count : Z) : parser (list chunk) :=
  count (parse_chunk c) chunk_count.

(** raw_frame.rs:18-22 *)
Record raw_frame := { rf_duration : Z; rf_chunks : list chunk }.

(** raw_frame.rs:24-34 *)
Definition raw_frame_cels (f : raw_frame) : list cel_chunk :=
  flat_map (fun ch => match ch with ChCel x => [x] | _ => [] end) (rf_chunks f).

(** raw_frame.rs:36: [0xF1FAu16.to_le_bytes()] *)
Definition FRAME_MAGIC_NUMBER : bytes := [0xFA; 0xF1].

(** raw_frame.rs:42-56 *)
Definition parse_rawframe (c : cfg) : parser raw_frame := fun input =>
  let* (input, size) := dword_size EInvalidFrameSize input in
  let* n := u32c c (size - 4) in
  let* (rest, input) := take n input in
  let* (input, _) := tag FRAME_MAGIC_NUMBER input in
  let* (input, chunk_count) := word input in
  let* (input, duration) := word input in
  let* (input, _) := take 2 input in
  let* (input, chunk_count32) := parse_dword_as_usize c input in
  let chunk_count := if chunk_count32 =? 0 then chunk_count else chunk_count32 in
  let* (_, chunks) := parse_chunks c chunk_count input in
  Ok (rest, {| rf_duration := duration; rf_chunks := chunks |}).

(** raw_frame.rs:38-40 *)
Definition parse_frames (c : cfg) : parser (list raw_frame) :=
  complete (all_consuming (many1 (parse_rawframe c))).

(** raw_file.rs:7-11 *)
Record raw_file := { rw_header : header; rw_frames : list raw_frame }.

(** raw_file.rs:13-17 *)
Definition parse_raw_file (c : cfg) (input : bytes) : out nom_err raw_file :=
  let* (input, header) := parse_header input in
  let* (_, frames) := parse_frames c input in
  Ok {| rw_header := header; rw_frames := frames |}.
