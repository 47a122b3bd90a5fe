(** Model of src/binary/palette.rs. *)
From Verif.Model Require Export RawFile.

(** palette.rs:11-14: [colors: [Color; 256]]; the list always has length 256
    (Proofs/PaletteFacts.v). *)
Definition palette := list color.

(** palette.rs:16-22 *)
Definition palette_default : palette := repeat color_default 256.

(** [v[i] = x] with the bounds check of Rust. *)
Definition set_index {E A} (l : list A) (i : Z) (x : A) : out E (list A) :=
  if (0 <=? i) && (i <? zlen l) then Ok (upd l (Z.to_nat i) x) else Panic PIndex.

(** [v[i]] with the bounds check of Rust. *)
Definition get_index {E A} (l : list A) (i : Z) : out E A :=
  if 0 <=? i then
    match nth_error l (Z.to_nat i) with Some a => Ok a | None => Panic PIndex end
  else Panic PIndex.

(** [palette.colors[i].alpha = 0], palette.rs:93, 126 *)
Definition clear_alpha {E} (p : palette) (i : Z) : out E palette :=
  let* x := get_index p i in
  set_index p i {| red := red x; green := green x; blue := blue x; alpha := 0 |}.

(** [first..=last] as an iterator (chunks/palette.rs). *)
Definition range_incl (a b : Z) : list Z :=
  map (fun k => a + Z.of_nat k) (seq 0 (Z.to_nat (b - a + 1))).

(** palette.rs:77-98; state = (palette, ok) *)
Definition process_palette_chunks (transparent_index : Z) (chunks : list palette_chunk)
    (p : palette) : out palette_error palette :=
  let* (p, ok) :=
    fold_out (fun st ch =>
      fold_out (fun '(p, ok) '(entry, color_idx) =>
        let* p := set_index p color_idx (pe_color entry) in
        Ok (p, true))
        (combine (pc_entries ch) (range_incl (pc_first ch) (pc_last ch))) st)
      chunks (p, false) in
  if ok : bool then clear_alpha p transparent_index else Err PEmpty.

(** palette.rs:112-122: the inner loop over the colours of one packet;
    state = (palette, color_idx, ok) *)
Definition old_packet_colors (c : cfg) (cols : list rgb) (st : palette * Z * bool)
    : out palette_error (palette * Z * bool) :=
  fold_out (fun '(p, color_idx, ok) col =>
    let* p := set_index p color_idx
        {| red := rgb_red col; green := rgb_green col; blue := rgb_blue col; alpha := 255 |} in
    let* color_idx := usizec c (color_idx + 1) in
    Ok (p, color_idx, true)) cols st.

(** palette.rs:108-123: the body of the loop over packets *)
Definition old_packet (c : cfg) (st : palette * Z * bool) (pk : packet)
    : out palette_error (palette * Z * bool) :=
  let '(p, color_idx, ok) := st in
  let* color_idx := usizec c (color_idx + pk_entries_to_skip pk) in
  let* e := usizec c (color_idx + zlen (pk_colors pk)) in
  if 256 <? e then Err PIndexOOB else
  old_packet_colors c (pk_colors pk) (p, color_idx, ok).

(** palette.rs:100-131 *)
Definition process_old_palette_chunks (c : cfg) (transparent_index : Z)
    (chunks : list old_palette_chunk) (p : palette) : out palette_error palette :=
  let* (p, ok) :=
    fold_out (fun '(p, ok) ch =>
      let* (p, _, ok) := fold_out (old_packet c) (op_packets ch) (p, 0, ok) in
      Ok (p, ok))
      chunks (p, false) in
  if ok : bool then clear_alpha p transparent_index else Err PEmpty.

(** palette.rs:26-37, 42-53, 58-69: chunks of one kind over all frames *)
Definition palette_chunks (frames : list raw_frame) : list palette_chunk :=
  flat_map (fun f => flat_map (fun ch => match ch with ChPalette p => [p] | _ => [] end)
                              (rf_chunks f)) frames.
Definition palette0004_chunks (frames : list raw_frame) : list old_palette_chunk :=
  flat_map (fun f => flat_map (fun ch => match ch with ChPalette0004 p => [p] | _ => [] end)
                              (rf_chunks f)) frames.
Definition palette0011_chunks (frames : list raw_frame) : list old_palette_chunk :=
  flat_map (fun f => flat_map (fun ch => match ch with ChPalette0011 p => [p] | _ => [] end)
                              (rf_chunks f)) frames.

(** palette.rs:24-75 *)
Definition create_palette (c : cfg) (h : header) (frames : list raw_frame)
    : out palette_error palette :=
  match palette_chunks frames with
  | (_ :: _) as l => process_palette_chunks (h_transparent_index h) l palette_default
  | [] =>
    match palette0004_chunks frames with
    | (_ :: _) as l => process_old_palette_chunks c (h_transparent_index h) l palette_default
    | [] =>
      match palette0011_chunks frames with
      | (_ :: _) as l => process_old_palette_chunks c (h_transparent_index h) l palette_default
      | [] => Err PMissing
      end
    end
  end.
