(** Model of src/binary/file.rs and src/binary/frame.rs. *)
From Verif.Model Require Export Palette.

(** frame.rs:3-8 *)
Record frame := { fr_duration : Z; fr_cels : list (option cel_chunk) }.

(** file.rs:19-29 *)
Record file := {
  f_header : header; f_palette : option palette; f_layers : list layer_chunk;
  f_frames : list frame; f_tags : list tag_; f_slices : list slice_chunk;
  f_user_data : option user_data_chunk }.

(** file.rs:130-138: the peekable iterator is the list of the chunks not yet
    consumed. *)
Definition next_user_data (it : list chunk) : option user_data_chunk * list chunk :=
  match it with
  | ChUserData u :: it' => (Some u, it')
  | _ => (None, it)
  end.

(** Struct update [LayerChunk { user_data, ..layer }] etc., file.rs:57-64, 83-86, 75 *)
Definition layer_with (l : layer_chunk) (u : option user_data_chunk) : layer_chunk :=
  {| lc_flags := lc_flags l; lc_layer_type := lc_layer_type l;
     lc_child_level := lc_child_level l; lc_blend_mode := lc_blend_mode l;
     lc_opacity := lc_opacity l; lc_name := lc_name l;
     lc_tileset_index := lc_tileset_index l; lc_user_data := u |}.
Definition cel_with (x : cel_chunk) (u : option user_data_chunk) : cel_chunk :=
  {| cc_layer_index := cc_layer_index x; cc_x := cc_x x; cc_y := cc_y x;
     cc_opacity := cc_opacity x; cc_z_index := cc_z_index x;
     cc_content := cc_content x; cc_user_data := u |}.
Definition slice_with (s : slice_chunk) (u : option user_data_chunk) : slice_chunk :=
  {| sc_name := sc_name s; sc_flags := sc_flags s; sc_slice_keys := sc_slice_keys s;
     sc_user_data := u |}.
Definition tag_with (t : tag_) (u : option user_data_chunk) : tag_ :=
  {| tg_from := tg_from t; tg_to := tg_to t;
     tg_animation_direction := tg_animation_direction t;
     tg_animation_repeat := tg_animation_repeat t; tg_color := tg_color t;
     tg_name := tg_name t; tg_user_data := u |}.

(** file.rs:74-79: the loop over the tags with its early [break] *)
Fixpoint tags_loop (tags : list tag_) (it : list chunk) : list tag_ * list chunk :=
  match tags with
  | [] => ([], it)
  | t :: ts =>
      match next_user_data it with
      | (Some u, it') =>
          let '(ts', it'') := tags_loop ts it' in (tag_with t (Some u) :: ts', it'')
      | (None, it') => (tag_with t None :: ts, it')
      end
  end.

(** The mutable variables of the loop over chunks, file.rs:41-46. *)
Record fstate := {
  st_cels : list cel_chunk; st_layers : list layer_chunk; st_tags : list tag_;
  st_slices : list slice_chunk; st_user_data : option user_data_chunk }.

Definition st_push_cel s x := {| st_cels := st_cels s ++ [x]; st_layers := st_layers s;
  st_tags := st_tags s; st_slices := st_slices s; st_user_data := st_user_data s |}.
Definition st_push_layer s x := {| st_cels := st_cels s; st_layers := st_layers s ++ [x];
  st_tags := st_tags s; st_slices := st_slices s; st_user_data := st_user_data s |}.
Definition st_extend_tags s x := {| st_cels := st_cels s; st_layers := st_layers s;
  st_tags := st_tags s ++ x; st_slices := st_slices s; st_user_data := st_user_data s |}.
Definition st_push_slice s x := {| st_cels := st_cels s; st_layers := st_layers s;
  st_tags := st_tags s; st_slices := st_slices s ++ [x]; st_user_data := st_user_data s |}.
Definition st_set_user_data s x := {| st_cels := st_cels s; st_layers := st_layers s;
  st_tags := st_tags s; st_slices := st_slices s; st_user_data := x |}.
Definition st_clear_cels s := {| st_cels := []; st_layers := st_layers s;
  st_tags := st_tags s; st_slices := st_slices s; st_user_data := st_user_data s |}.

(** file.rs:49-89: one iteration, for the chunk [ch] just taken from the
    iterator and the remaining chunks [it].  [first] is [frames.is_empty()]. *)
Definition chunk_step (first : bool) (s : fstate) (ch : chunk) (it : list chunk)
    : fstate * list chunk :=
  match ch with
  | ChPalette0004 _ | ChPalette0011 _ | ChPalette _ =>
      if first && match st_user_data s with None => true | Some _ => false end
      then let '(u, it) := next_user_data it in (st_set_user_data s u, it)
      else (s, it)
  | ChLayer l => let '(u, it) := next_user_data it in (st_push_layer s (layer_with l u), it)
  | ChCel x => let '(u, it) := next_user_data it in (st_push_cel s (cel_with x u), it)
  | ChCelExtra _ | ChColorProfile _ | ChExternalFiles _ | ChMask _ | ChPath => (s, it)
  | ChTags t => let '(ts, it) := tags_loop (tc_tags t) it in (st_extend_tags s ts, it)
  | ChUserData _ => (s, it)
  | ChSlice x => let '(u, it) := next_user_data it in (st_push_slice s (slice_with x u), it)
  | ChTileset _ | ChUnsupported _ => (s, it)
  end.

(** file.rs:48-90: [while let Some(chunk) = chunks.next()].  Every iteration
    consumes at least one chunk: one unit of fuel each. *)
Fixpoint chunk_loop (fuel : nat) (first : bool) (s : fstate) (it : list chunk)
    : out nom_err fstate :=
  match it with
  | [] => Ok s
  | ch :: it' =>
      match fuel with
      | O => Panic PFuel
      | S fuel' =>
          let '(s', it'') := chunk_step first s ch it' in
          chunk_loop fuel' first s' it''
      end
  end.

(** file.rs:45-92: the loop over raw frames; the accumulated [frames] are
    (duration, cels) pairs. *)
Definition frame_step (acc : list (Z * list cel_chunk) * fstate) (rf : raw_frame)
    : out nom_err (list (Z * list cel_chunk) * fstate) :=
  let '(frames, s) := acc in
  let first := match frames with [] => true | _ :: _ => false end in
  let* s := chunk_loop (length (rf_chunks rf)) first (st_clear_cels s) (rf_chunks rf) in
  Ok (frames ++ [(rf_duration rf, st_cels s)], s).

(** file.rs:105-111: insertion of the cels of one frame.  The check is
    [layer_index > layers.len()], the assignment [cels[layer_index] = Some(cel)]
    panics when the index equals the length. *)
Definition insert_cels (n : Z) (cs : list cel_chunk) : out nom_err (list (option cel_chunk)) :=
  fold_out (fun cels cel =>
    if n <? cc_layer_index cel then failure ELayerIndexOutOfBounds
    else set_index cels (cc_layer_index cel) (Some cel))
    cs (repeat None (Z.to_nat n)).

(** file.rs:31-126 *)
Definition parse_file (c : cfg) (input : bytes) : out nom_err file :=
  let* raw := parse_raw_file c input in
  let* pal :=
    match h_color_depth (rw_header raw) with
    | Indexed =>
        let* p := map_err (fun e => NFailure (EPalette e))
                          (create_palette c (rw_header raw) (rw_frames raw)) in
        Ok (Some p)
    | _ => Ok None
    end in
  let* (frames, s) :=
    fold_out frame_step (rw_frames raw)
      ([], {| st_cels := []; st_layers := []; st_tags := []; st_slices := [];
              st_user_data := None |}) in
  let* frames :=
    map_out (fun '(duration, cs) =>
      let* cels := insert_cels (zlen (st_layers s)) cs in
      Ok {| fr_duration := duration; fr_cels := cels |}) frames in
  Ok {| f_header := rw_header raw; f_palette := pal; f_layers := st_layers s;
        f_frames := frames; f_tags := st_tags s; f_slices := st_slices s;
        f_user_data := st_user_data s |}.
