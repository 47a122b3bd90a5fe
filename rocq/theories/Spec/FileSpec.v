(** What the sprite level of the binary module has to compute from the chunks
    of the raw frames.  Uses the data types of the model and the record updates
    [layer_with] etc. (attach user data), none of its algorithms. *)
From Verif.Model Require Import File.

(** Every chunk together with the chunks after it in its frame. *)
Fixpoint suffixes (cs : list chunk) : list (chunk * list chunk) :=
  match cs with
  | [] => []
  | x :: rest => (x, rest) :: suffixes rest
  end.

(** The user data chunks at the very start of a chunk list. *)
Fixpoint followers (cs : list chunk) : list user_data_chunk :=
  match cs with
  | ChUserData u :: rest => u :: followers rest
  | _ => []
  end.

(** The user data of an owner that can have one: the chunk right after it. *)
Definition own (rest : list chunk) : option user_data_chunk := nth_error (followers rest) 0.

Definition spec_layers (cs : list chunk) : list layer_chunk :=
  flat_map (fun '(x, rest) => match x with ChLayer l => [layer_with l (own rest)] | _ => [] end)
           (suffixes cs).
Definition spec_cels (cs : list chunk) : list cel_chunk :=
  flat_map (fun '(x, rest) => match x with ChCel l => [cel_with l (own rest)] | _ => [] end)
           (suffixes cs).
Definition spec_slices (cs : list chunk) : list slice_chunk :=
  flat_map (fun '(x, rest) => match x with ChSlice l => [slice_with l (own rest)] | _ => [] end)
           (suffixes cs).
(** The k-th tag gets the k-th follower of its tags chunk. *)
Fixpoint give (tags : list tag_) (us : list user_data_chunk) : list tag_ :=
  match tags with
  | [] => []
  | t :: ts => tag_with t (nth_error us 0) :: give ts (skipn 1 us)
  end.
Definition spec_tags (cs : list chunk) : list tag_ :=
  flat_map (fun '(x, rest) => match x with ChTags t => give (tc_tags t) (followers rest) | _ => [] end)
           (suffixes cs).

(** The user data of the sprite: the follower of the first palette chunk that
    has one. *)
Definition is_palette_chunk (x : chunk) : bool :=
  match x with ChPalette0004 _ | ChPalette0011 _ | ChPalette _ => true | _ => false end.
Definition spec_sprite_data (cs : list chunk) : option user_data_chunk :=
  nth_error (flat_map (fun '(x, rest) => if is_palette_chunk x then firstn 1 (followers rest) else [])
                      (suffixes cs)) 0.

(** ** Cels *)
(** The last cel of the list that belongs to layer [k]. *)
Definition cel_at (k : Z) (cs : list cel_chunk) : option cel_chunk :=
  find (fun x => cc_layer_index x =? k) (rev cs).
Definition slots (n : Z) (cs : list cel_chunk) : list (option cel_chunk) :=
  map (fun k => cel_at k cs) (zrange n).

(** ** Palettes: a list of (index, colour) assignments in file order *)
Definition assigned (ws : list (Z * color)) (k : Z) : color :=
  match find (fun w => fst w =? k) (rev ws) with
  | Some (_, x) => x
  | None => {| red := 0; green := 0; blue := 0; alpha := 0 |}
  end.
Definition spec_color (transparent : Z) (ws : list (Z * color)) (k : Z) : color :=
  let x := assigned ws k in
  if k =? transparent then {| red := red x; green := green x; blue := blue x; alpha := 0 |} else x.

(** The entries of a new palette chunk are the colours [first], [first + 1], ...;
    entries past [last] are dropped. *)
Fixpoint number (k : Z) (es : list palette_entry) : list (Z * color) :=
  match es with
  | [] => []
  | e :: es' => (k, pe_color e) :: number (k + 1) es'
  end.
Definition new_writes (p : palette_chunk) : list (Z * color) :=
  filter (fun w => fst w <=? pc_last p) (number (pc_first p) (pc_entries p)).

(** Old palette: each packet starts [skip] colours after the end of the one
    before; [None] when a packet runs past the 256th colour. *)
Definition opaque (x : rgb) : color :=
  {| red := rgb_red x; green := rgb_green x; blue := rgb_blue x; alpha := 255 |}.
Fixpoint place (start : Z) (cols : list rgb) : list (Z * color) :=
  match cols with
  | [] => []
  | x :: cols' => (start, opaque x) :: place (start + 1) cols'
  end.
Fixpoint old_writes (from : Z) (ps : list packet) : option (list (Z * color)) :=
  match ps with
  | [] => Some []
  | p :: ps' =>
      let start := from + pk_entries_to_skip p in
      let stop := start + zlen (pk_colors p) in
      if 256 <? stop then None
      else match old_writes stop ps' with
           | Some ws => Some (place start (pk_colors p) ++ ws)
           | None => None
           end
  end.
(** All old palette chunks, each starting again at colour 0. *)
(** One past the last entry the packets of a chunk reach: every packet skips some
    entries, counted from the end of the previous one, and then sets some. *)
Definition packets_end (ps : list packet) : Z :=
  fold_left (fun k p => k + (pk_entries_to_skip p + zlen (pk_colors p))) ps 0.

Fixpoint old_writes_all (chs : list old_palette_chunk) : option (list (Z * color)) :=
  match chs with
  | [] => Some []
  | ch :: chs' =>
      match old_writes 0 (op_packets ch), old_writes_all chs' with
      | Some a, Some b => Some (a ++ b)
      | _, _ => None
      end
  end.

(** Chunks of each palette kind, in file order. *)
Definition all_chunks (fs : list raw_frame) : list chunk := flat_map rf_chunks fs.
Definition new_palettes (fs : list raw_frame) : list palette_chunk :=
  flat_map (fun x => match x with ChPalette p => [p] | _ => [] end) (all_chunks fs).
Definition palettes_0004 (fs : list raw_frame) : list old_palette_chunk :=
  flat_map (fun x => match x with ChPalette0004 p => [p] | _ => [] end) (all_chunks fs).
Definition palettes_0011 (fs : list raw_frame) : list old_palette_chunk :=
  flat_map (fun x => match x with ChPalette0011 p => [p] | _ => [] end) (all_chunks fs).

(** The assignments, or the error. *)
Definition spec_writes (fs : list raw_frame) : list (Z * color) + palette_error :=
  match new_palettes fs, palettes_0004 fs, palettes_0011 fs with
  | (_ :: _) as l, _, _ => inl (flat_map new_writes l)
  | [], (_ :: _) as l, _ | [], [], (_ :: _) as l =>
      match old_writes_all l with Some ws => inl ws | None => inr PIndexOOB end
  | [], [], [] => inr PMissing
  end.
Definition spec_palette (transparent : Z) (fs : list raw_frame) : list color + palette_error :=
  match spec_writes fs with
  | inl [] => inr PEmpty
  | inl ws => inl (map (spec_color transparent ws) (zrange 256))
  | inr e => inr e
  end.

(** ** The whole sprite *)
(** The cels of the whole file in file order *)
Definition frame_cels (raw : raw_file) : list cel_chunk :=
  flat_map (fun fr => spec_cels (rf_chunks fr)) (rw_frames raw).
Definition spec_all_layers (raw : raw_file) : list layer_chunk :=
  flat_map (fun fr => spec_layers (rf_chunks fr)) (rw_frames raw).
Definition layer_count (raw : raw_file) : Z := zlen (spec_all_layers raw).

(** The palette to use, or the error *)
Definition palette_of (raw : raw_file) : out palette_error (option palette) :=
  match h_color_depth (rw_header raw) with
  | Indexed =>
      match spec_palette (h_transparent_index (rw_header raw)) (rw_frames raw) with
      | inl p => Ok (Some p)
      | inr e => Err e
      end
  | _ => Ok None
  end.

Definition file_of (raw : raw_file) (pal : option palette) : file :=
  {| f_header := rw_header raw; f_palette := pal; f_layers := spec_all_layers raw;
     f_frames := map (fun fr => {| fr_duration := rf_duration fr;
                                   fr_cels := slots (layer_count raw) (spec_cels (rf_chunks fr)) |})
                     (rw_frames raw);
     f_tags := flat_map (fun fr => spec_tags (rf_chunks fr)) (rw_frames raw);
     f_slices := flat_map (fun fr => spec_slices (rf_chunks fr)) (rw_frames raw);
     f_user_data := match rw_frames raw with fr :: _ => spec_sprite_data (rf_chunks fr) | [] => None end |}.


(** A cel that does not belong to any of the [n] layers, and what the crate does
    about the first one: an error if its index is greater than [n], but an index
    out of bounds (C24) if it equals [n]. *)
Definition bad_cel (n : Z) (x : cel_chunk) : bool := n <=? cc_layer_index x.
Definition cel_failure {A} (n : Z) (x : cel_chunk) : out nom_err A :=
  if n <? cc_layer_index x then Err (NFailure ELayerIndexOutOfBounds) else Panic PIndex.

(** The outcome of parsing a file whose raw content is [raw]. *)
Definition spec_outcome (raw : raw_file) : out nom_err file :=
  match palette_of raw with
  | Ok pal =>
      match find (bad_cel (layer_count raw)) (frame_cels raw) with
      | None => Ok (file_of raw pal)
      | Some x => cel_failure (layer_count raw) x
      end
  | Err e => Err (NFailure (EPalette e))
  | Panic p => Panic p
  end.
