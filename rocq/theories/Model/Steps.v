(** The parsers of Nom.v, Scalars.v, Enums.v, Header.v, UserData.v, Chunks.v and
    RawFile.v once more, line by line, with a count of the steps they take.

    A step is: one call of a basic parser of nom ([take], [tag] or a number),
    one round of a loop ([count], [many1]), or one byte looked at by
    [str::from_utf8].  What remains of the code between two steps is bounded by
    a constant: a few comparisons, a table lookup, the construction of a value.
    That the outcome is the one of the model proper is part of what is proved
    (Proofs/StepsProps.v), so nothing here has to be trusted for the outcome;
    only where the steps are counted has to be read. *)
From Verif.Model Require Export RawFile.

(** The steps taken, and the outcome. *)
Definition nout A := (Z * out nom_err A)%type.
Definition npres A := nout (bytes * A).
Definition nparser A := bytes -> npres A.

Definition done {A} (a : A) : nout A := (0, Ok a).
Definition fail {A} (e : parse_error) : nout A := (0, failure e).
Definition stop {A} (p : panic) : nout A := (0, Panic p).
Definition lift {A} (m : out nom_err A) : nout A := (0, m).
(** One step, or [n] of them. *)
Definition step {A} (m : nout A) : nout A := (1 + fst m, snd m).
Definition steps {A} (n : Z) (m : nout A) : nout A := (n + fst m, snd m).
Definition nbind {A B} (m : nout A) (k : A -> nout B) : nout B :=
  match snd m with
  | Ok a => steps (fst m) (k a)
  | Err e => (fst m, Err e)
  | Panic p => (fst m, Panic p)
  end.
Notation "'let!' p ':=' m 'in' k" :=
  (nbind m (fun p => k)) (at level 61, p pattern, m at next level, right associativity).

(** ** Nom.v *)

Definition n_take (n : Z) : nparser bytes := fun i => step (lift (take n i)).
Definition n_tag (t : bytes) : nparser bytes := fun i => step (lift (tag t i)).
Definition n_le_uint (n : nat) : nparser Z := fun i => step (lift (le_uint n i)).
Definition n_le_int (n : nat) : nparser Z := fun i => step (lift (le_int n i)).

Definition n_pmap {A B} (p : nparser A) (f : A -> B) : nparser B := fun i =>
  let! (i, a) := p i in done (i, f a).

Definition n_flat_map_p {A B} (p : nparser A) (f : A -> nparser B) : nparser B := fun i =>
  let! (i, a) := p i in f a i.

Definition n_cond {A} (b : bool) (p : nparser A) : nparser (option A) := fun i =>
  if b then n_pmap p Some i else done (i, None).

Fixpoint n_count_nat {A} (p : nparser A) (n : nat) : nparser (list A) := fun i =>
  match n with
  | O => done (i, [])
  | S n' =>
      let! (i, a) := step (p i) in
      let! (i, l) := n_count_nat p n' i in
      done (i, a :: l)
  end.
Definition n_count {A} (p : nparser A) (n : Z) : nparser (list A) :=
  n_count_nat p (Z.to_nat n).

Fixpoint n_many_loop {A} (p : nparser A) (fuel : nat) (acc : list A) : nparser (list A) := fun i =>
  match fuel with
  | O => stop PFuel
  | S fuel' =>
      match step (p i) with
      | (n, Err (NError _)) => (n, Ok (i, rev acc))
      | (n, Err (NFailure e)) => (n, Err (NFailure e))
      | (n, Panic q) => (n, Panic q)
      | (n, Ok (i', a)) =>
          if (length i' =? length i)%nat then (n, Err (NError (ENom i KMany1)))
          else steps n (n_many_loop p fuel' (a :: acc) i')
      end
  end.

Definition n_many1 {A} (p : nparser A) : nparser (list A) := fun i =>
  match step (p i) with
  | (n, Err e) => (n, Err e)
  | (n, Panic q) => (n, Panic q)
  | (n, Ok (i', a)) => steps n (n_many_loop p (S (length i')) [a] i')
  end.

Definition n_all_consuming {A} (p : nparser A) : nparser A := fun i =>
  let! (i, a) := p i in
  match i with
  | [] => done (i, a)
  | _ :: _ => lift (Err (NError (ENom i KEof)))
  end.

Definition n_complete {A} (p : nparser A) : nparser A := p.

(** ** Scalars.v *)

(** scalars.rs:65-68 *)
Definition n_byte : nparser Z := n_le_uint 1.

(** scalars.rs:70-73 *)
Definition n_word : nparser Z := n_le_uint 2.

(** scalars.rs:75-78 *)
Definition n_short : nparser Z := n_le_int 2.

(** scalars.rs:80-83 *)
Definition n_dword : nparser Z := n_le_uint 4.

(** scalars.rs:85-88 *)
Definition n_long : nparser Z := n_le_int 4.

(** scalars.rs:90-94 *)
Definition n_parse_point : nparser point := fun input =>
  let! (input, x) := n_long input in
  let! (input, y) := n_long input in
  done (input, {| pt_x := x; pt_y := y |}).

(** scalars.rs:96-100 *)
Definition n_parse_size : nparser size := fun input =>
  let! (input, width) := n_long input in
  let! (input, height) := n_long input in
  done (input, {| sz_width := width; sz_height := height |}).

(** scalars.rs:102-106 *)
Definition n_parse_rect : nparser rect := fun input =>
  let! (input, p) := n_parse_point input in
  let! (input, s) := n_parse_size input in
  done (input, {| rc_point := p; rc_size := s |}).

(** scalars.rs:108-119 *)
Definition n_dword_size (f : Z -> parse_error) : nparser Z := fun input =>
  let! (input, size) := n_dword input in
  if 4 <=? size then done (input, size) else fail (f size).

(** scalars.rs:121-127 *)
Definition n_parse_dword_as_usize (c : cfg) : nparser Z := fun input =>
  let! (input, size) := n_dword input in
  if size <? 2 ^ usize_bits c then done (input, size) else fail (EDwordToUsize size).

(** scalars.rs:129-133 *)
Definition n_parse_dword_as_u8 (e : parse_error) : nparser Z := fun input =>
  let! (input, size) := n_dword input in
  if size <? 256 then done (input, size) else fail e.

(** scalars.rs:135-137; [from_utf8] looks at every byte of the string at most
    once, and is counted as if it always saw all of them. *)
Definition n_parse_string : nparser bytes := fun input =>
  let! (rest, s) := n_flat_map_p n_word n_take input in
  steps (zlen s)
    match from_utf8 s with
    | None => done (rest, s)
    | Some (valid_up_to, error_len) => lift (Err (NError (EUtf8 valid_up_to error_len)))
    end.

(** scalars.rs:139-141 *)
Definition n_parse_uuid : nparser Z := n_le_uint 16.

(** scalars.rs:143-147 *)
Definition n_fixed : nparser fixedp := fun input =>
  let! (input, low) := n_le_uint 2 input in
  let! (input, high) := n_le_uint 2 input in
  done (input, {| fx_0 := high; fx_1 := low |}).

(** scalars.rs:149-163 *)
Definition n_parse_color : nparser color := fun input =>
  let! (input, r) := n_byte input in
  let! (input, g) := n_byte input in
  let! (input, b) := n_byte input in
  let! (input, a) := n_byte input in
  done (input, {| red := r; green := g; blue := b; alpha := a |}).

(** scalars.rs:165-170 *)
Definition n_parse_rgb : nparser rgb := fun input =>
  let! (input, r) := n_byte input in
  let! (input, g) := n_byte input in
  let! (input, b) := n_byte input in
  done (input, {| rgb_red := r; rgb_green := g; rgb_blue := b |}).


(** ** Enums.v *)

(** color_depth.rs:49-52 *)
Definition n_parse_color_depth : nparser color_depth := fun input =>
  let! (input, b) := n_word input in done (input, color_depth_from b).

(** chunk_type.rs:24-26 *)
Definition n_parse_chunk_type : nparser (chunk_type + Z) :=
  n_pmap n_word (fun n => match chunk_type_from_repr n with Some t => inl t | None => inr n end).

(** ** Header.v *)

(** header.rs:56-101 *)
Definition n_parse_header : nparser header := fun input =>
  let! (rest, input) := n_take 128 input in
  let! (input, file_size) := n_dword input in
  let! (input, _) := n_tag HEADER_MAGIC_NUMBER input in
  let! (input, frames) := n_word input in
  let! (input, width) := n_word input in
  let! (input, height) := n_word input in
  let! (input, color_depth) := n_parse_color_depth input in
  let! (input, flags) := n_dword input in
  let! (input, speed) := n_word input in
  let! (input, _) := n_tag [0; 0; 0; 0] input in
  let! (input, _) := n_tag [0; 0; 0; 0] input in
  let! (input, transparent_index) := n_byte input in
  let! (input, _) := n_take 3 input in
  let! (input, color_count) := n_word input in
  let! (input, pixel_width) := n_byte input in
  let! (input, pixel_height) := n_byte input in
  let! (input, grid_x) := n_short input in
  let! (input, grid_y) := n_short input in
  let! (input, grid_width) := n_word input in
  let! (input, grid_height) := n_word input in
  let! (input, _) := n_take 84 input in
  (* assert_eq!(input.len(), 0), header.rs:79 *)
  if negb (length input =? 0)%nat then stop PAssert else
  done (rest,
      {| h_file_size := file_size; h_frames := frames; h_width := width;
         h_height := height; h_color_depth := color_depth; h_flags := flags;
         h_speed := speed; h_transparent_index := transparent_index;
         h_color_count := color_count; h_pixel_width := pixel_width;
         h_pixel_height := pixel_height; h_grid_x := grid_x; h_grid_y := grid_y;
         h_grid_width := grid_width; h_grid_height := grid_height |}).


(** ** UserData.v *)

(** user_data.rs:180, 215 *)
Definition n_parse_bool : nparser bool := n_pmap n_byte (fun b => negb (b =? 0)).

(** user_data.rs:168-172 *)
Definition n_parse_property (pv : nparser value) : nparser property := fun input =>
  let! (input, name) := n_parse_string input in
  let! (input, value) := pv input in
  done (input, Prop_ name value).

Fixpoint
  (** user_data.rs:174-202 *)
  n_parse_value (c : cfg) (fuel : nat) (input : bytes) {struct fuel} : npres value :=
  match fuel with
  | O => stop PFuel
  | S f =>
      let! (input, prop_type) := n_word input in
      match property_type_from_repr prop_type with
      | None => fail (EInvalidPropertyType prop_type)
      | Some pt =>
          match pt with
          | PTBool => n_pmap n_parse_bool VBool input
          | PTInt8 => n_pmap (n_le_int 1) VInt8 input
          | PTUint8 => n_pmap (n_le_uint 1) VUint8 input
          | PTInt16 => n_pmap (n_le_int 2) VInt16 input
          | PTUint16 => n_pmap (n_le_uint 2) VUint16 input
          | PTInt32 => n_pmap (n_le_int 4) VInt32 input
          | PTUint32 => n_pmap (n_le_uint 4) VUint32 input
          | PTInt64 => n_pmap (n_le_int 8) VInt64 input
          | PTUint64 => n_pmap (n_le_uint 8) VUint64 input
          | PTFixed => n_pmap n_fixed VFixed input
          | PTFloat => n_pmap (n_le_uint 4) VFloat input
          | PTDouble => n_pmap (n_le_uint 8) VDouble input
          | PTString => n_pmap n_parse_string VString input
          | PTPoint => n_pmap n_parse_point VPoint input
          | PTSize => n_pmap n_parse_size VSize input
          | PTRect => n_pmap n_parse_rect VRect input
          | PTVector => n_pmap (n_parse_vector c f) VVector input
          | PTPropertiesMap => n_pmap (n_parse_properties_map c f) VPropertiesMap input
          | PTUuid => n_pmap n_parse_uuid VUuid input
          end
      end
  end
with
  (** user_data.rs:204-245 *)
  n_parse_vector (c : cfg) (fuel : nat) (input : bytes) {struct fuel} : npres vector :=
  match fuel with
  | O => stop PFuel
  | S f =>
      let! (input, len_elements) := n_parse_dword_as_usize c input in
      let! (input, prop_type) := n_word input in
      if prop_type =? 0 then
        n_pmap (n_count (n_parse_value c f) len_elements) VecMixed input
      else
      match property_type_from_repr prop_type with
      | None => fail (EInvalidPropertyType prop_type)
      | Some pt =>
          match pt with
          | PTBool => n_pmap (n_count n_parse_bool len_elements) VecBool input
          | PTInt8 => n_pmap (n_count (n_le_int 1) len_elements) VecInt8 input
          | PTUint8 => n_pmap (n_count (n_le_uint 1) len_elements) VecUint8 input
          | PTInt16 => n_pmap (n_count (n_le_int 2) len_elements) VecInt16 input
          | PTUint16 => n_pmap (n_count (n_le_uint 2) len_elements) VecUint16 input
          | PTInt32 => n_pmap (n_count (n_le_int 4) len_elements) VecInt32 input
          | PTUint32 => n_pmap (n_count (n_le_uint 4) len_elements) VecUint32 input
          | PTInt64 => n_pmap (n_count (n_le_int 8) len_elements) VecInt64 input
          | PTUint64 => n_pmap (n_count (n_le_uint 8) len_elements) VecUint64 input
          | PTFixed => n_pmap (n_count n_fixed len_elements) VecFixed input
          | PTFloat => n_pmap (n_count (n_le_uint 4) len_elements) VecFloat input
          | PTDouble => n_pmap (n_count (n_le_uint 8) len_elements) VecDouble input
          | PTString => n_pmap (n_count n_parse_string len_elements) VecString input
          | PTPoint => n_pmap (n_count n_parse_point len_elements) VecPoint input
          | PTSize => n_pmap (n_count n_parse_size len_elements) VecSize input
          | PTRect => n_pmap (n_count n_parse_rect len_elements) VecRect input
          | PTVector => n_pmap (n_count (n_parse_vector c f) len_elements) VecVector input
          | PTPropertiesMap =>
              n_pmap (n_count (n_parse_properties_map c f) len_elements) VecPropertiesMap input
          | PTUuid => n_pmap (n_count n_parse_uuid len_elements) VecUuid input
          end
      end
  end
with
  (** user_data.rs:155-166 *)
  n_parse_properties_map (c : cfg) (fuel : nat) (input : bytes) {struct fuel} : npres properties_map :=
  match fuel with
  | O => stop PFuel
  | S f =>
      let! (input, extension_entry_id) := n_dword input in
      let! (input, num_props) := n_parse_dword_as_usize c input in
      let! (input, properties) := n_count (n_parse_property (n_parse_value c f)) num_props input in
      done (input, PropMap properties extension_entry_id)
  end.

(** user_data.rs:142-153 *)
Definition n_parse_properties_maps (c : cfg) : nparser (bytes * list properties_map + nom_err) :=
  fun input =>
  let! (input, size_maps) := n_parse_dword_as_usize c input in
  let! (input, num_maps) := n_parse_dword_as_usize c input in
  let! n := lift (usizec c (size_maps - 8)) in
  let! (input, input_maps) := n_take n input in
  match n_count (n_parse_properties_map c (S (length input_maps))) num_maps input_maps with
  | (k, Ok r) => (k, Ok (input, inl r))
  | (k, Err e) => (k, Ok (input, inr e))
  | (k, Panic p) => (k, Panic p)
  end.

(** user_data.rs:121-140 *)
Definition n_parse_user_data_chunk (c : cfg) : nparser user_data_chunk := fun input =>
  let! (input, flags) := n_dword input in
  let flags := from_bits_truncate UDF_ALL flags in
  let! (input, text) := n_cond (contains flags UDF_HAS_TEXT) n_parse_string input in
  let! (input, color) := n_cond (contains flags UDF_HAS_COLOR) n_parse_color input in
  let! (input, properties_maps) :=
    n_cond (contains flags UDF_HAS_PROPERTIES) (n_parse_properties_maps c) input in
  done (input, {| ud_text := text; ud_color := color; ud_properties_maps := properties_maps |}).


(** ** Chunks.v *)

(** old_palette.rs:33-49 *)
Definition n_parse_packet : nparser packet := fun input =>
  let! (input, entries_to_skip) := n_byte input in
  let! (input, number_of_colors) := n_byte input in
  let number_of_colors := if number_of_colors =? 0 then 256 else number_of_colors in
  let! (input, colors) := n_count n_parse_rgb number_of_colors input in
  done (input, {| pk_entries_to_skip := entries_to_skip; pk_colors := colors |}).

(** old_palette.rs:27-31 *)
Definition n_parse_old_palette_chunk : nparser old_palette_chunk := fun input =>
  let! (input, number_of_packets) := n_word input in
  let! (input, packets) := n_count n_parse_packet number_of_packets input in
  done (input, {| op_packets := packets |}).

(** palette.rs:58-65 *)
Definition n_parse_palette_entry : nparser palette_entry := fun input =>
  let! (input, flags) := n_word input in
  let flags := from_bits_truncate PEF_HAS_NAME flags in
  let! (input, color) := n_parse_color input in
  let! (input, name) := n_cond (contains flags PEF_HAS_NAME) n_parse_string input in
  done (input, {| pe_color := color; pe_name := name |}).

(** palette.rs:32-56 *)
Definition n_parse_palette_chunk (c : cfg) : nparser palette_chunk := fun input =>
  let! (input, palette_size) := n_parse_dword_as_usize c input in
  let! (input, first_color_index) := n_parse_dword_as_u8 (EPalette PFirstOOB) input in
  let! (input, last_color_index) := n_parse_dword_as_u8 (EPalette PLastOOB) input in
  if last_color_index <? first_color_index then fail (EPalette PFirstGtLast) else
  let! (input, _) := n_take 8 input in
  let! (input, entries) := n_count n_parse_palette_entry palette_size input in
  done (input, {| pc_first := first_color_index; pc_last := last_color_index;
                pc_entries := entries |}).

(** layer.rs:56-84 *)
Definition n_parse_layer_chunk : nparser layer_chunk := fun input =>
  let! (input, flags) := n_word input in
  let flags := from_bits_truncate LF_ALL flags in
  let! (input, lt) := n_word input in
  let lt := layer_type_from lt in
  let! (input, child_level) := n_word input in
  let! (input, _default_layer_width) := n_word input in
  let! (input, _default_layer_height) := n_word input in
  let! (input, bm) := n_word input in
  let bm := blend_mode_from bm in
  let! (input, opacity) := n_byte input in
  let! (input, _) := n_take 3 input in
  let! (input, name) := n_parse_string input in
  let! (input, tileset_index) :=
    n_cond (match lt with LTilemap => true | _ => false end) n_dword input in
  done (input, {| lc_flags := flags; lc_layer_type := lt; lc_child_level := child_level;
                lc_blend_mode := bm; lc_opacity := opacity; lc_name := name;
                lc_tileset_index := tileset_index; lc_user_data := None |}).

(** cel.rs:90-139 *)
Definition n_parse_cel_content (ct : cel_type) (input : bytes) : nout cel_content :=
  match ct with
  | CTRawImageData =>
      let! (input, width) := n_word input in
      let! (input, height) := n_word input in
      done (CImage {| im_width := width; im_height := height; im_data := input;
                    im_compressed := false |})
  | CTLinkedCel =>
      let! (_, frame_position) := n_word input in
      done (CLinked frame_position)
  | CTCompressedImage =>
      let! (input, width) := n_word input in
      let! (input, height) := n_word input in
      done (CImage {| im_width := width; im_height := height; im_data := input;
                    im_compressed := true |})
  | CTCompressedTilemap =>
      let! (input, width) := n_word input in
      let! (input, height) := n_word input in
      let! (input, bits_per_tile) := n_word input in
      let! (input, bitmask_tile_id) := n_dword input in
      let! (input, bitmask_y_flip) := n_dword input in
      let! (input, bitmask_x_flip) := n_dword input in
      let! (input, bitmask_diagonal_flip) := n_dword input in
      let! (input, _) := n_take 10 input in
      done (CTilemap width height bits_per_tile bitmask_tile_id bitmask_x_flip
                   bitmask_y_flip bitmask_diagonal_flip input)
  | CTUnknown cel_type => done (CUnknown cel_type input)
  end.

(** cel.rs:81-152 *)
Definition n_parse_cel_chunk : nparser cel_chunk := fun input =>
  let! (input, layer_index) := n_word input in
  let! (input, x) := n_short input in
  let! (input, y) := n_short input in
  let! (input, opacity) := n_byte input in
  let! (input, ct) := n_word input in
  let ct := cel_type_from ct in
  let! (input, z_index) := n_short input in
  let! (input, _) := n_take 5 input in
  let! content := n_parse_cel_content ct input in
  done ([], {| cc_layer_index := layer_index; cc_x := x; cc_y := y; cc_opacity := opacity;
             cc_z_index := z_index; cc_content := content; cc_user_data := None |}).

(** cel_extra.rs:25-42 *)
Definition n_parse_cel_extra_chunk : nparser cel_extra_chunk := fun input =>
  let! (input, flags) := n_dword input in
  let! (input, px) := n_fixed input in
  let! (input, py) := n_fixed input in
  let! (input, w) := n_fixed input in
  let! (input, h) := n_fixed input in
  done ([], {| ce_flags := from_bits_truncate CEF_PRECISE flags; ce_precise_x_position := px;
             ce_precise_y_position := py; ce_width_of_the_cel := w;
             ce_height_of_the_cel := h; ce_future := input |}).

(** color_profile.rs:42-69 *)
Definition n_parse_color_profile : nparser color_profile_chunk := fun input =>
  let! (input, profile_type) := n_word input in
  let profile_type := color_profile_type_from profile_type in
  let! (input, flags) := n_word input in
  let flags := from_bits_truncate CPF_FIXED_GAMMA flags in
  let! (input, fixed_gamma) := n_fixed input in
  let! (input, _) := n_take 8 input in
  let! (input, profile) :=
    match profile_type with
    | CPTNone => done (input, CPNone)
    | CPTSrgb => done (input, CPSrgb)
    | CPTEmbeddedICC => n_pmap (n_flat_map_p n_dword n_take) CPEmbeddedICC input
    | CPTUnknown w => done (input, CPUnknown w)
    end in
  done (input, {| cp_fixed_gamma := if contains flags CPF_FIXED_GAMMA then Some fixed_gamma else None;
                cp_profile := profile |}).

(** external_files.rs:48-62 *)
Definition n_parse_external_file : nparser external_file := fun input =>
  let! (input, entry_id) := n_dword input in
  let! (input, ft) := n_byte input in
  let ft := external_file_type_from ft in
  let! (input, _) := n_take 7 input in
  let! (input, file_name) := n_parse_string input in
  done (input, {| ef_entry_id := entry_id; ef_file_type := ft; ef_file_name := file_name |}).

(** external_files.rs:41-46 *)
Definition n_parse_external_files_chunk (c : cfg) : nparser external_files_chunk := fun input =>
  let! (input, number_of_entries) := n_parse_dword_as_usize c input in
  let! (input, _) := n_take 8 input in
  let! (input, files) := n_count n_parse_external_file number_of_entries input in
  done (input, {| efc_files := files |}).

(** mask.rs:31-56 *)
Definition n_parse_mask_chunk : nparser mask_chunk := fun input =>
  let! (input, x) := n_short input in
  let! (input, y) := n_short input in
  let! (input, width) := n_word input in
  let! (input, height) := n_word input in
  let! (input, _) := n_take 8 input in
  let! (input, name) := n_parse_string input in
  done ([], {| mk_x := x; mk_y := y; mk_width := width; mk_height := height;
             mk_name := name; mk_data := input |}).

(** slice.rs:94-108 *)
Definition n_parse_nine_patch : nparser nine_patch := fun input =>
  let! (input, x) := n_long input in
  let! (input, y) := n_long input in
  let! (input, width) := n_dword input in
  let! (input, height) := n_dword input in
  done (input, {| np_x := x; np_y := y; np_width := width; np_height := height |}).

(** slice.rs:110-114 *)
Definition n_parse_pivot : nparser pivot := fun input =>
  let! (input, x) := n_long input in
  let! (input, y) := n_long input in
  done (input, {| pv_x := x; pv_y := y |}).

(** slice.rs:71-92 *)
Definition n_parse_slice_key (flags : Z) : nparser slice_key := fun input =>
  let! (input, frame_number) := n_dword input in
  let! (input, x) := n_long input in
  let! (input, y) := n_long input in
  let! (input, width) := n_dword input in
  let! (input, height) := n_dword input in
  let! (input, np) := n_cond (contains flags SF_NINE_PATCH) n_parse_nine_patch input in
  let! (input, pv) := n_cond (contains flags SF_PIVOT) n_parse_pivot input in
  done (input, {| sk_frame_number := frame_number; sk_x := x; sk_y := y; sk_width := width;
                sk_height := height; sk_nine_patch := np; sk_pivot := pv |}).

(** slice.rs:52-69 *)
Definition n_parse_slice_chunk (c : cfg) : nparser slice_chunk := fun input =>
  let! (input, number_of_keys) := n_parse_dword_as_usize c input in
  let! (input, flags) := n_dword input in
  let flags := from_bits_truncate SF_ALL flags in
  let! (input, _) := n_dword input in
  let! (input, name) := n_parse_string input in
  let! (input, slice_keys) := n_count (n_parse_slice_key flags) number_of_keys input in
  done (input, {| sc_name := name; sc_flags := flags; sc_slice_keys := slice_keys;
                sc_user_data := None |}).

(** tags.rs:52-79 *)
Definition n_parse_tag : nparser tag_ := fun input =>
  let! (input, from_frame) := n_word input in
  let! (input, to_frame) := n_word input in
  if to_frame <? from_frame then fail (EInvalidFrameRange from_frame to_frame) else
  let! (input, ad) := n_byte input in
  let ad := animation_direction_from ad in
  let! (input, animation_repeat) := n_word input in
  let! (input, _) := n_take 6 input in
  let! (input, color) := n_take 3 input in
  let! (input, _) := n_byte input in
  let! (input, name) := n_parse_string input in
  done (input, {| tg_from := from_frame; tg_to := to_frame; tg_animation_direction := ad;
                tg_animation_repeat := animation_repeat; tg_color := color; tg_name := name;
                tg_user_data := None |}).

(** tags.rs:45-50 *)
Definition n_parse_tags_chunk : nparser tags_chunk := fun input =>
  let! (input, number_of_tags) := n_word input in
  let! (input, _) := n_take 8 input in
  let! (input, tags) := n_count n_parse_tag number_of_tags input in
  done (input, {| tc_tags := tags |}).

(** tileset.rs:111-121 *)
Definition n_parse_tileset_external_file : nparser tileset_external_file := fun input =>
  let! (input, external_file_id) := n_dword input in
  let! (input, tileset_id) := n_dword input in
  done (input, {| te_external_file_id := external_file_id; te_tileset_id := tileset_id |}).

(** tileset.rs:125-127 *)
Definition n_parse_tiles : nparser bytes := n_flat_map_p n_dword n_take.

(** tileset.rs:79-109 *)
Definition n_parse_tileset_chunk : nparser tileset_chunk := fun input =>
  let! (input, id) := n_dword input in
  let! (input, flags) := n_dword input in
  let flags := from_bits_truncate TF_ALL flags in
  let! (input, number_of_tiles) := n_dword input in
  let! (input, width) := n_word input in
  let! (input, height) := n_word input in
  let! (input, base_index) := n_short input in
  let! (input, _) := n_take 14 input in
  let! (input, name) := n_parse_string input in
  let! (input, ef) := n_cond (contains flags TF_EXTERNAL_FILE) n_parse_tileset_external_file input in
  let! (input, tiles) := n_cond (contains flags TF_TILES) n_parse_tiles input in
  done (input, {| ts_id := id; ts_flags := flags; ts_number_of_tiles := number_of_tiles;
                ts_width := width; ts_height := height; ts_base_index := base_index;
                ts_name := name; ts_external_file := ef; ts_tiles := tiles |}).


(** ** RawFile.v *)

(** [Chunk::X(parse(chunk_data)?.1)] *)
Definition n_just {A} (f : A -> chunk) (r : npres A) : nout chunk :=
  let! (_, a) := r in done (f a).

(** chunk.rs:51-69 *)
Definition n_parse_chunk_data (c : cfg) (t : chunk_type + Z) (d : bytes) : nout chunk :=
  match t with
  | inl TPalette0004 => n_just ChPalette0004 (n_parse_old_palette_chunk d)
  | inl TPalette0011 => n_just ChPalette0011 (n_parse_old_palette_chunk d)
  | inl TLayer => n_just ChLayer (n_parse_layer_chunk d)
  | inl TCel => n_just ChCel (n_parse_cel_chunk d)
  | inl TCelExtra => n_just ChCelExtra (n_parse_cel_extra_chunk d)
  | inl TColorProfile => n_just ChColorProfile (n_parse_color_profile d)
  | inl TExternalFile => n_just ChExternalFiles (n_parse_external_files_chunk c d)
  | inl TMask => n_just ChMask (n_parse_mask_chunk d)
  | inl TPath => done ChPath
  | inl TTags => n_just ChTags (n_parse_tags_chunk d)
  | inl TPalette => n_just ChPalette (n_parse_palette_chunk c d)
  | inl TUserData => n_just ChUserData (n_parse_user_data_chunk c d)
  | inl TSlice => n_just ChSlice (n_parse_slice_chunk c d)
  | inl TTileset => n_just ChTileset (n_parse_tileset_chunk d)
  | inr t => done (ChUnsupported t)
  end.

(** chunk.rs:46-71 *)
Definition n_parse_chunk (c : cfg) : nparser chunk := fun input =>
  let! (input, size) := n_dword_size EInvalidFrameSize input in
  let! n := lift (u32c c (size - 4)) in
  let! (rest, input) := n_take n input in
  let! (chunk_data, chunk_type) := n_parse_chunk_type input in
  let! chunk := n_parse_chunk_data c chunk_type chunk_data in
  done (rest, chunk).

(** chunk.rs:42-44 *)
Definition n_parse_chunks (c : cfg) (chunk_count : Z) : nparser (list chunk) :=
  n_count (n_parse_chunk c) chunk_count.

(** raw_frame.rs:42-56 *)
Definition n_parse_rawframe (c : cfg) : nparser raw_frame := fun input =>
  let! (input, size) := n_dword_size EInvalidFrameSize input in
  let! n := lift (u32c c (size - 4)) in
  let! (rest, input) := n_take n input in
  let! (input, _) := n_tag FRAME_MAGIC_NUMBER input in
  let! (input, chunk_count) := n_word input in
  let! (input, duration) := n_word input in
  let! (input, _) := n_take 2 input in
  let! (input, chunk_count32) := n_parse_dword_as_usize c input in
  let chunk_count := if chunk_count32 =? 0 then chunk_count else chunk_count32 in
  let! (_, chunks) := n_parse_chunks c chunk_count input in
  done (rest, {| rf_duration := duration; rf_chunks := chunks |}).

(** raw_frame.rs:38-40 *)
Definition n_parse_frames (c : cfg) : nparser (list raw_frame) :=
  n_complete (n_all_consuming (n_many1 (n_parse_rawframe c))).

(** raw_file.rs:13-17 *)
Definition n_parse_raw_file (c : cfg) (input : bytes) : nout raw_file :=
  let! (input, header) := n_parse_header input in
  let! (_, frames) := n_parse_frames c input in
  done {| rw_header := header; rw_frames := frames |}.
