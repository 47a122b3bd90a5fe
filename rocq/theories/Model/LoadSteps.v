(** Loading (Palette.v, File.v, Loader.v) once more, line by line, with a count of
    the rounds of its loops, added to the steps of the reader (Steps.v).  As
    there, that the outcome is the one of the model proper is proved
    (Proofs/LoadStepsProps.v); only where rounds are counted has to be read.
    An iterator with [filter_map] has a round for every element it looks at.
    Operations on the hash map are one round of the loop they are in; copying
    memory ([to_string], growing a [Vec]) and the drop of values are not
    counted. *)
From Verif.Model Require Export Steps Loader.

Definition kout E A := (Z * out E A)%type.
Definition plain {E A} (m : out E A) : kout E A := (0, m).
Definition round {E A} (m : kout E A) : kout E A := (1 + fst m, snd m).
Definition rounds_of {E A} (n : Z) (m : kout E A) : kout E A := (n + fst m, snd m).
Definition kbind {E A B} (m : kout E A) (k : A -> kout E B) : kout E B :=
  match snd m with
  | Ok a => let r := k a in (fst m + fst r, snd r)
  | Err e => (fst m, Err e)
  | Panic p => (fst m, Panic p)
  end.
Notation "'let%' p ':=' m 'in' k" :=
  (kbind m (fun p => k)) (at level 61, p pattern, m at next level, right associativity).
Definition k_map_err {E F A} (f : E -> F) (m : kout E A) : kout F A := (fst m, map_err f (snd m)).

Fixpoint k_fold {E A B} (f : A -> B -> kout E A) (l : list B) (a : A) : kout E A :=
  match l with
  | [] => plain (Ok a)
  | b :: l' => round (let% a' := f a b in k_fold f l' a')
  end.
Fixpoint k_map {E A B} (f : A -> kout E B) (l : list A) : kout E (list B) :=
  match l with
  | [] => plain (Ok [])
  | a :: l' => round (let% b := f a in let% bs := k_map f l' in plain (Ok (b :: bs)))
  end.

(** ** Palette.v *)

(** palette.rs:77-98 *)
Definition k_process_palette_chunks (transparent_index : Z) (chunks : list palette_chunk)
    (p : palette) : kout palette_error palette :=
  let% (p, ok) :=
    k_fold (fun st ch =>
      k_fold (fun '(p, ok) '(entry, color_idx) =>
        let% p := plain (set_index p color_idx (pe_color entry)) in
        plain (Ok (p, true)))
        (combine (pc_entries ch) (range_incl (pc_first ch) (pc_last ch))) st)
      chunks (p, false) in
  if ok : bool then plain (clear_alpha p transparent_index) else plain (Err PEmpty).
(** palette.rs:112-122 *)
Definition k_old_packet_colors (c : cfg) (cols : list rgb) (st : palette * Z * bool)
    : kout palette_error (palette * Z * bool) :=
  k_fold (fun '(p, color_idx, ok) col =>
    let% p := plain (set_index p color_idx
        {| red := rgb_red col; green := rgb_green col; blue := rgb_blue col; alpha := 255 |}) in
    let% color_idx := plain (usizec c (color_idx + 1)) in
    plain (Ok (p, color_idx, true))) cols st.
(** palette.rs:108-123 *)
Definition k_old_packet (c : cfg) (st : palette * Z * bool) (pk : packet)
    : kout palette_error (palette * Z * bool) :=
  let '(p, color_idx, ok) := st in
  let% color_idx := plain (usizec c (color_idx + pk_entries_to_skip pk)) in
  let% e := plain (usizec c (color_idx + zlen (pk_colors pk))) in
  if 256 <? e then plain (Err PIndexOOB) else
  k_old_packet_colors c (pk_colors pk) (p, color_idx, ok).
(** palette.rs:100-131 *)
Definition k_process_old_palette_chunks (c : cfg) (transparent_index : Z)
    (chunks : list old_palette_chunk) (p : palette) : kout palette_error palette :=
  let% (p, ok) :=
    k_fold (fun '(p, ok) ch =>
      let% (p, _, ok) := k_fold (k_old_packet c) (op_packets ch) (p, 0, ok) in
      plain (Ok (p, ok)))
      chunks (p, false) in
  if ok : bool then plain (clear_alpha p transparent_index) else plain (Err PEmpty).
(** palette.rs:26-37, 42-53, 58-69: looking for chunks of one kind looks at all *)
Definition pass (frames : list raw_frame) : Z :=
  fold_right (fun f n => 1 + zlen (rf_chunks f) + n) 0 frames.
(** palette.rs:24-75 *)
Definition k_create_palette (c : cfg) (h : header) (frames : list raw_frame)
    : kout palette_error palette :=
  rounds_of (pass frames)
  match palette_chunks frames with
  | (_ :: _) as l => k_process_palette_chunks (h_transparent_index h) l palette_default
  | [] =>
    rounds_of (pass frames)
    match palette0004_chunks frames with
    | (_ :: _) as l => k_process_old_palette_chunks c (h_transparent_index h) l palette_default
    | [] =>
      rounds_of (pass frames)
      match palette0011_chunks frames with
      | (_ :: _) as l => k_process_old_palette_chunks c (h_transparent_index h) l palette_default
      | [] => plain (Err PMissing)
      end
    end
  end.

(** ** File.v *)

(** file.rs:74-79 *)
Fixpoint k_tags_loop (tags : list tag_) (it : list chunk) : Z * (list tag_ * list chunk) :=
  match tags with
  | [] => (0, ([], it))
  | t :: ts =>
      match next_user_data it with
      | (Some u, it') =>
          let '(n, (ts', it'')) := k_tags_loop ts it' in (1 + n, (tag_with t (Some u) :: ts', it''))
      | (None, it') => (1, (tag_with t None :: ts, it'))
      end
  end.
(** file.rs:49-89; [extend] has a round for every tag. *)
Definition k_chunk_step (first : bool) (s : fstate) (ch : chunk) (it : list chunk)
    : Z * (fstate * list chunk) :=
  match ch with
  | ChTags t =>
      let '(n, (ts, it)) := k_tags_loop (tc_tags t) it in (n + zlen ts, (st_extend_tags s ts, it))
  | _ => (0, chunk_step first s ch it)
  end.
(** file.rs:48-90 *)
Fixpoint k_chunk_loop (fuel : nat) (first : bool) (s : fstate) (it : list chunk)
    : kout nom_err fstate :=
  match it with
  | [] => plain (Ok s)
  | ch :: it' =>
      match fuel with
      | O => plain (Panic PFuel)
      | S fuel' =>
          let '(n, (s', it'')) := k_chunk_step first s ch it' in
          round (rounds_of n (k_chunk_loop fuel' first s' it''))
      end
  end.
(** file.rs:45-92 *)
Definition k_frame_step (acc : list (Z * list cel_chunk) * fstate) (rf : raw_frame)
    : kout nom_err (list (Z * list cel_chunk) * fstate) :=
  let '(frames, s) := acc in
  let first := match frames with [] => true | _ :: _ => false end in
  let% s := k_chunk_loop (length (rf_chunks rf)) first (st_clear_cels s) (rf_chunks rf) in
  plain (Ok (frames ++ [(rf_duration rf, st_cels s)], s)).
(** file.rs:100-111: a round for every layer, and one for every cel *)
Definition k_insert_cels (n : Z) (cs : list cel_chunk) : kout nom_err (list (option cel_chunk)) :=
  rounds_of n
  (k_fold (fun cels cel =>
    if n <? cc_layer_index cel then plain (failure ELayerIndexOutOfBounds)
    else plain (set_index cels (cc_layer_index cel) (Some cel)))
    cs (repeat None (Z.to_nat n))).
(** file.rs:31-126 *)
Definition k_parse_file (c : cfg) (input : bytes) : kout nom_err file :=
  let% raw := n_parse_raw_file c input in
  let% pal :=
    match h_color_depth (rw_header raw) with
    | Indexed =>
        let% p := k_map_err (fun e => NFailure (EPalette e))
                          (k_create_palette c (rw_header raw) (rw_frames raw)) in
        plain (Ok (Some p))
    | _ => plain (Ok None)
    end in
  let% (frames, s) :=
    k_fold k_frame_step (rw_frames raw)
      ([], {| st_cels := []; st_layers := []; st_tags := []; st_slices := [];
              st_user_data := None |}) in
  let% frames :=
    k_map (fun '(duration, cs) =>
      let% cels := k_insert_cels (zlen (st_layers s)) cs in
      plain (Ok {| fr_duration := duration; fr_cels := cels |})) frames in
  plain (Ok {| f_header := rw_header raw; f_palette := pal; f_layers := st_layers s;
        f_frames := frames; f_tags := st_tags s; f_slices := st_slices s;
        f_user_data := st_user_data s |}).

(** ** Loader.v *)

(** mod.rs:154-165: a round for every frame and every place for a cel in it *)
Definition k_collect_images (fs : list frame) : Z * (list image * image_map) :=
  (fold_right (fun f n => 1 + zlen (fr_cels f) + n) 0 fs, collect_images fs).
(** mod.rs:183: the cels of a frame, with a round for every place *)
Fixpoint k_cels {E A B} (f : A -> out E B) (l : list (option A)) : kout E (list B) :=
  match l with
  | [] => plain (Ok [])
  | None :: l' => round (k_cels f l')
  | Some a :: l' => round (let% b := plain (f a) in let% bs := k_cels f l' in plain (Ok (b :: bs)))
  end.
(** mod.rs:181-215 *)
Definition k_build_frame (v : list image) (m : image_map) (f : Z * frame)
    : kout load_sprite_error sframe :=
  let% cels := k_cels (build_cel v m (fst f)) (fr_cels (snd f)) in
  plain (Ok {| sf_duration := fr_duration (snd f); sf_origin := (0, 0); sf_cels := cels |}).
(** mod.rs:134-224: layers, images, tags, frames *)
Definition k_build_sprite (f : file) : kout load_sprite_error ase_file :=
  rounds_of (zlen (f_layers f))
  (let '(n, (v, m)) := k_collect_images (f_frames f) in
  rounds_of n
  (rounds_of (zlen (f_tags f))
  (let% frames := k_map (k_build_frame v m) (enumerate (f_frames f)) in
  plain (Ok {| af_file := f; af_layers := build_layers (f_layers f); af_frames := frames;
        af_tags := map build_tag (f_tags f); af_images := v |})))).
(** mod.rs:130-224 *)
Definition k_load (c : cfg) (data : bytes) : kout load_sprite_error ase_file :=
  let% f := k_map_err LParse (k_parse_file c data) in
  k_build_sprite f.
