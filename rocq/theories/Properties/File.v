(** Properties of [parse_file] and [AsepriteFile::load] (C01, C02, C08, C14,
    C22-C30).  Every theorem is closed by one lemma of Proofs/. *)
From Coq Require Import Sorted.
From Verif.Model Require Import Loader.
From Verif.Spec Require Import Bytes Format FileSpec Slices LoaderSpec.
From Verif.Proofs Require Import PaletteFacts FileProps LoaderProps FileFinal BinaryFinal.
From Verif.Tests Require Import Configs TestData Build.

(** ** C01 *)
(** Refuted: every build can be made to panic by a cel whose layer index equals
    the number of layers, ... *)
Theorem C01_layer_index_refuted : forall c, cfg_ok c ->
  exists i, is_bytes i /\ addressable c i /\ load c i = Panic PIndex.
Proof. exact layer_index_panics. Qed.
Print Assumptions C01_layer_index_refuted.

(** ... and a debug build by a properties area smaller than its own header. *)
Theorem C01_overflow_refuted : forall c, cfg_ok c -> debug c = true ->
  exists i, is_bytes i /\ addressable c i /\ load c i = Panic POverflow.
Proof. exact short_area_panics. Qed.
Print Assumptions C01_overflow_refuted.

(** What does hold: those are the only panics. *)
Theorem C01_panics_partial : forall c i q, cfg_ok c -> is_bytes i -> addressable c i ->
  load c i = Panic q ->
  (debug c = true /\ q = POverflow) \/
  (q = PIndex /\ exists raw x, raw_file_l (kept_error c) raw i /\ In x (frame_cels raw) /\
     cc_layer_index x = layer_count raw).
Proof. exact load_panics. Qed.
Print Assumptions C01_panics_partial.

(** For release builds, exactly the files that panic. *)
Theorem C01_release_partial : forall c i q, cfg_ok c -> is_bytes i -> addressable c i ->
  debug c = false ->
  load c i = Panic q <->
  q = PIndex /\ exists raw pal before x after,
    raw_file_l (kept_error c) raw i /\ palette_of raw = Ok pal /\
    frame_cels raw = before ++ x :: after /\
    Forall (fun y => cc_layer_index y < layer_count raw) before /\
    cc_layer_index x = layer_count raw.
Proof. exact load_release_panics. Qed.
Print Assumptions C01_release_partial.

Example C01_example :
  load rel64 boundary_file = Panic PIndex /\ load dbg64 short_area_file = Panic POverflow /\
  (exists e, load rel64 short_area_file = Err e) /\ (exists e, load dbg64 [1; 2; 3] = Err e) /\
  (exists s, load dbg64 file_combine = Ok s).
Proof. repeat split; try eexists; vm_compute; reflexivity. Qed.

(** ** C02 *)
Theorem C02_load_terminates : forall c i, cfg_ok c -> is_bytes i -> addressable c i ->
  load c i <> Panic PFuel.
Proof. exact load_terminates. Qed.
Print Assumptions C02_load_terminates.

(** ** C08 *)
Theorem C08_frame_count_refuted : forall c, cfg_ok c ->
  exists i s, is_bytes i /\ addressable c i /\ load c i = Ok s /\
    h_frames (f_header (af_file s)) = 7 /\ zlen (api_frames s) = 2.
Proof. exact header_frames_wrong. Qed.
Print Assumptions C08_frame_count_refuted.

(** What does hold: the frames are those stored in the file body. *)
Theorem C08_frame_count_partial : forall c i s, cfg_ok c -> is_bytes i -> addressable c i ->
  load c i = Ok s ->
  exists raw, raw_file_l (kept_error c) raw i /\ zlen (api_frames s) = zlen (rw_frames raw) /\
    map sf_duration (api_frames s) = map rf_duration (rw_frames raw).
Proof. exact frames_counted. Qed.
Print Assumptions C08_frame_count_partial.

Example C08_example : exists s, load dbg64 file_issue_4_2 = Ok s /\ zlen (api_frames s) = 6 /\
  h_frames (f_header (af_file s)) = 6.
Proof. eexists. split; [vm_compute; reflexivity|]. split; reflexivity. Qed.

(** ** C14 *)
Theorem C14_tag_range_refuted : forall c, cfg_ok c ->
  exists i s t, is_bytes i /\ addressable c i /\ load c i = Ok s /\
    In t (api_tags s) /\ stag_range t = (3, 9) /\ zlen (api_frames s) = 1.
Proof. exact tag_past_end. Qed.
Print Assumptions C14_tag_range_refuted.

(** What does hold: ranges are not empty and their ends are WORDs. *)
Theorem C14_tag_range_partial : forall c i s t, cfg_ok c -> is_bytes i -> addressable c i ->
  load c i = Ok s -> In t (api_tags s) ->
  0 <= fst (stag_range t) <= snd (stag_range t) /\ snd (stag_range t) < 65536.
Proof. exact tags_ordered. Qed.
Print Assumptions C14_tag_range_partial.

Example C14_example : exists s, load dbg64 file_tags = Ok s /\ api_tags s <> [].
Proof. eexists. split; [vm_compute; reflexivity|]. discriminate. Qed.

(** ** C22 *)
Theorem C22_file_slices : forall c i f x, cfg_ok c -> is_bytes i -> addressable c i ->
  parse_file c i = Ok f -> In x (file_slices f) -> infix x i.
Proof. exact file_slices_infix. Qed.
Print Assumptions C22_file_slices.

Theorem C22_sprite_slices : forall c i s, cfg_ok c -> is_bytes i -> addressable c i ->
  load c i = Ok s -> forall x, In x (sprite_slices s) -> infix x i.
Proof. exact sprite_slices_infix. Qed.
Print Assumptions C22_sprite_slices.

Example C22_sprite_example : exists s, load dbg64 file_user_data = Ok s /\
  In [115; 108; 105; 99; 101; 95; 100; 97; 116; 97] (sprite_slices s). (* "slice_data" *)
Proof. eexists. split; [vm_compute; reflexivity|]. vm_compute. tauto. Qed.

(** ** C23 *)
(** Layers, tags, slices and cels in terms of the chunks of each frame; see
    [own], [followers], [give] in Spec/FileSpec.v for the user data. *)
Theorem C23_attached : forall c i f, cfg_ok c -> is_bytes i -> addressable c i ->
  parse_file c i = Ok f ->
  exists raw, raw_file_l (kept_error c) raw i /\
    f_layers f = flat_map (fun fr => spec_layers (rf_chunks fr)) (rw_frames raw) /\
    f_tags f = flat_map (fun fr => spec_tags (rf_chunks fr)) (rw_frames raw) /\
    f_slices f = flat_map (fun fr => spec_slices (rf_chunks fr)) (rw_frames raw) /\
    f_user_data f = match rw_frames raw with
                    | fr :: _ => spec_sprite_data (rf_chunks fr)
                    | [] => None
                    end /\
    Forall2 (fun fr rf => forall x, In (Some x) (fr_cels fr) -> In x (spec_cels (rf_chunks rf)))
            (f_frames f) (rw_frames raw).
Proof. exact attached. Qed.
Print Assumptions C23_attached.

(** Nothing is attached twice: the user data taken after one chunk ends before
    the next chunk that is not user data. *)
Theorem C23_exclusive : forall a y b, (forall u, y <> ChUserData u) ->
  (length (followers (a ++ y :: b)) <= length a)%nat.
Proof. exact followers_bounded. Qed.
Print Assumptions C23_exclusive.

Example C23_example : exists f, parse_file dbg64 file_user_data = Ok f /\
  map (option_map ud_text) (map lc_user_data (f_layers f)) =
    [Some (Some [108; 97; 121; 101; 114; 95; 100; 97; 116; 97])] /\ (* "layer_data" *)
  option_map ud_text (f_user_data f) =
    Some (Some [115; 112; 114; 105; 116; 101; 95; 100; 97; 116; 97]) /\ (* "sprite_data" *)
  map (option_map ud_text) (map tg_user_data (f_tags f)) =
    [Some (Some [116; 97; 103; 95; 100; 97; 116; 97; 95; 49]);
     Some (Some [116; 97; 103; 95; 100; 97; 116; 97; 95; 50])]. (* "tag_data_1", "tag_data_2" *)
Proof. eexists. split; [vm_compute; reflexivity|]. repeat split. Qed.

(** ** C24 *)
Theorem C24_slots : forall c i f, cfg_ok c -> is_bytes i -> addressable c i ->
  parse_file c i = Ok f ->
  exists raw, raw_file_l (kept_error c) raw i /\
    Forall2 (fun fr rf => fr_duration fr = rf_duration rf /\ zlen (fr_cels fr) = zlen (f_layers f) /\
               forall j, (j < length (f_layers f))%nat ->
                 nth_error (fr_cels fr) j = Some (cel_at (Z.of_nat j) (spec_cels (rf_chunks rf))))
            (f_frames f) (rw_frames raw) /\
    Forall (fun x => 0 <= cc_layer_index x < zlen (f_layers f)) (frame_cels raw).
Proof. exact cel_slots. Qed.
Print Assumptions C24_slots.

(** [cel_at k] is the last cel of layer [k], if there is one. *)
Theorem C24_last_cel : forall k cs x, cel_at k cs = Some x <->
  exists a b, cs = a ++ x :: b /\ cc_layer_index x = k /\ Forall (fun y => cc_layer_index y <> k) b.
Proof. exact cel_at_some. Qed.
Print Assumptions C24_last_cel.
Theorem C24_no_cel : forall k cs, cel_at k cs = None <-> Forall (fun y => cc_layer_index y <> k) cs.
Proof. exact cel_at_none. Qed.
Print Assumptions C24_no_cel.

(** The first cel without a layer: the announced error if its index is greater
    than the number of layers, but a panic if it is equal. *)
Theorem C24_bad_index_partial : forall c i raw pal before x after,
  cfg_ok c -> is_bytes i -> addressable c i ->
  raw_file_l (kept_error c) raw i -> palette_of raw = Ok pal ->
  frame_cels raw = before ++ x :: after ->
  Forall (fun y => cc_layer_index y < layer_count raw) before ->
  (layer_count raw < cc_layer_index x -> parse_file c i = Err (NFailure ELayerIndexOutOfBounds)) /\
  (cc_layer_index x = layer_count raw -> parse_file c i = Panic PIndex).
Proof. exact cel_index_outcome. Qed.
Print Assumptions C24_bad_index_partial.

Theorem C24_boundary_refuted : forall c, cfg_ok c ->
  exists i raw x, is_bytes i /\ addressable c i /\ parse_raw_file c i = Ok raw /\
    frame_cels raw = [x] /\ layer_count raw = 1 /\ cc_layer_index x = 1 /\
    parse_file c i = Panic PIndex.
Proof. exact boundary_panics. Qed.
Print Assumptions C24_boundary_refuted.

Example C24_example : (* two cels on layer 0, none on layer 1; then an index that is too large *)
  (exists f fr x, parse_file dbg64
    (hdr 1 32 1 1 ++ frm [layer_ch 1 0 0 255 [97]; layer_ch 1 0 0 255 [98];
       raw_cel_ch 0 1 1 255 1 1 [1; 2; 3; 4]; raw_cel_ch 0 2 2 255 1 1 [5; 6; 7; 8]]) = Ok f /\
    f_frames f = [fr] /\ fr_cels fr = [Some x; None] /\ cc_x x = 2) /\
  parse_file dbg64 (hdr 1 32 1 1 ++ frm [layer_ch 1 0 0 255 [97]; raw_cel_ch 2 0 0 255 1 1 [1; 2; 3; 4]]) =
    Err (NFailure ELayerIndexOutOfBounds).
Proof.
  split; [|vm_compute; reflexivity]. do 3 eexists. split; [vm_compute; reflexivity|]. repeat split.
Qed.

(** ** C25 *)
Theorem C25_palette : forall c i raw, cfg_ok c -> is_bytes i -> addressable c i ->
  raw_file_l (kept_error c) raw i ->
  (forall f, parse_file c i = Ok f ->
     match h_color_depth (rw_header raw) with
     | Indexed => exists p ws, f_palette f = Some p /\ spec_writes (rw_frames raw) = inl ws /\
         ws <> [] /\ zlen p = 256 /\
         forall k, (k < 256)%nat ->
           nth_error p k = Some (spec_color (h_transparent_index (rw_header raw)) ws (Z.of_nat k))
     | _ => f_palette f = None
     end) /\
  (h_color_depth (rw_header raw) = Indexed ->
     (spec_writes (rw_frames raw) = inl [] -> parse_file c i = Err (NFailure (EPalette PEmpty))) /\
     (forall e, spec_writes (rw_frames raw) = inr e -> parse_file c i = Err (NFailure (EPalette e)))).
Proof. exact palette_built. Qed.
Print Assumptions C25_palette.

(** [assigned ws k], on which [spec_color] rests, is the last colour assigned
    to [k], or transparent black. *)
Theorem C25_last_wins : forall ws k,
  (forall a x b, ws = a ++ (k, x) :: b -> Forall (fun w => fst w <> k) b -> assigned ws k = x) /\
  (Forall (fun w => fst w <> k) ws ->
   assigned ws k = {| red := 0; green := 0; blue := 0; alpha := 0 |}).
Proof. exact assigned_cases. Qed.
Print Assumptions C25_last_wins.

Example C25_example : (* the colours the crate's own test expects *)
  exists f p, parse_file dbg64 file_indexed = Ok f /\ f_palette f = Some p /\
    nth_error p 27 = Some {| red := 172; green := 50; blue := 50; alpha := 255 |} /\
    nth_error p 10 = Some {| red := 106; green := 190; blue := 48; alpha := 255 |} /\
    nth_error p 17 = Some {| red := 91; green := 110; blue := 225; alpha := 255 |}.
Proof. do 2 eexists. split; [vm_compute; reflexivity|]. repeat split. Qed.
Example C25_example_missing :
  parse_file dbg64 (hdr 1 8 1 1 ++ frm []) = Err (NFailure (EPalette PMissing)) /\
  parse_file dbg64 (hdr 1 8 1 1 ++ frm [old_palette_ch 4 []]) = Err (NFailure (EPalette PEmpty)).
Proof. split; vm_compute; reflexivity. Qed.

(** ** C26 *)
(** The hypothesis on the packets holds for everything the parser returns
    (C16): the number of entries to skip is a byte. *)
Theorem C26_old_palette : forall c ti chs, cfg_ok c -> 0 <= ti < 256 ->
  Forall (fun ch => Forall (fun p => 0 <= pk_entries_to_skip p <= 255 /\ zlen (pk_colors p) <= 256)
                           (op_packets ch)) chs ->
  (forall q, process_old_palette_chunks c ti chs palette_default <> Panic q) /\
  (process_old_palette_chunks c ti chs palette_default = Err PIndexOOB <->
   exists ch, In ch chs /\ 256 < packets_end (op_packets ch)) /\
  ((forall ch, In ch chs -> packets_end (op_packets ch) <= 256) ->
   (exists ch p, In ch chs /\ In p (op_packets ch) /\ pk_colors p <> []) ->
   exists pal, process_old_palette_chunks c ti chs palette_default = Ok pal).
Proof. exact old_palette_total. Qed.
Print Assumptions C26_old_palette.

Example C26_example :
  parse_file dbg64 (hdr 1 8 1 1 ++ frm [old_palette_ch 4 [(255, [(1, 2, 3); (4, 5, 6)])]]) =
    Err (NFailure (EPalette PIndexOOB)) /\
  exists f p, parse_file dbg64 (hdr 1 8 1 1 ++ frm [old_palette_ch 4 [(254, [(1, 2, 3); (4, 5, 6)])]]) = Ok f /\
    f_palette f = Some p /\ nth_error p 255 = Some {| red := 4; green := 5; blue := 6; alpha := 255 |}.
Proof. split; [vm_compute; reflexivity|]. do 2 eexists. split; [vm_compute; reflexivity|]. repeat split. Qed.

(** ** C27 *)
Theorem C27_images : forall c i s, cfg_ok c -> is_bytes i -> addressable c i -> load c i = Ok s ->
  exists keys, StronglySorted before (map fst keys) /\
    af_images s = map snd keys /\ api_image_count s = zlen keys /\
    forall k l im, In ((Z.of_nat k, Z.of_nat l), im) keys <->
      exists fr x, nth_error (f_frames (af_file s)) k = Some fr /\
        nth_error (fr_cels fr) l = Some (Some x) /\ cc_content x = CImage im.
Proof. exact images_collected. Qed.
Print Assumptions C27_images.

Example C27_example : exists s, load dbg64 file_combine = Ok s /\ api_image_count s > 1.
Proof. eexists. split; vm_compute; reflexivity. Qed.

(** ** C28 *)
Theorem C28_cels : forall c i s k sf, cfg_ok c -> is_bytes i -> addressable c i -> load c i = Ok s ->
  nth_error (api_frames s) k = Some sf ->
  exists fr, nth_error (f_frames (af_file s)) k = Some fr /\
    Forall2 (fun x fc => fc_origin fc = (cc_x x, cc_y x) /\ fc_layer_index fc = cc_layer_index x)
            (filled fr) (sf_cels sf) /\
    forall fc, In fc (sf_cels sf) ->
      0 <= fc_image_index fc < api_image_count s /\
      exists im, nth_error (af_images s) (Z.to_nat (fc_image_index fc)) = Some im /\
        fc_size fc = (im_width im, im_height im).
Proof. exact cels_shown. Qed.
Print Assumptions C28_cels.

Theorem C28_own_image : forall c i s, cfg_ok c -> is_bytes i -> addressable c i -> load c i = Ok s ->
  forall k fr sf j x im fc,
  nth_error (f_frames (af_file s)) k = Some fr -> nth_error (af_frames s) k = Some sf ->
  nth_error (filled fr) j = Some x -> nth_error (sf_cels sf) j = Some fc -> cc_content x = CImage im ->
  nth_error (af_images s) (Z.to_nat (fc_image_index fc)) = Some im.
Proof. exact image_cel_own. Qed.
Print Assumptions C28_own_image.

Theorem C28_linked : forall c i s, cfg_ok c -> is_bytes i -> addressable c i -> load c i = Ok s ->
  forall k fr sf j x p fc,
  nth_error (f_frames (af_file s)) k = Some fr -> nth_error (af_frames s) k = Some sf ->
  nth_error (filled fr) j = Some x -> nth_error (sf_cels sf) j = Some fc -> cc_content x = CLinked p ->
  exists sf' fr' j' x' im fc', nth_error (af_frames s) (Z.to_nat p) = Some sf' /\
    nth_error (f_frames (af_file s)) (Z.to_nat p) = Some fr' /\
    nth_error (filled fr') j' = Some x' /\ nth_error (sf_cels sf') j' = Some fc' /\
    cc_content x' = CImage im /\ cc_layer_index x' = cc_layer_index x /\
    fc_layer_index fc' = fc_layer_index fc /\ fc_image_index fc' = fc_image_index fc /\
    fc_size fc' = fc_size fc.
Proof. exact linked_cel_shares. Qed.
Print Assumptions C28_linked.

(** Exactly the parsed files that load. *)
Theorem C28_loads_iff : forall c i f, cfg_ok c -> is_bytes i -> addressable c i ->
  parse_file c i = Ok f ->
  (exists s, load c i = Ok s) <->
  forall k fr l x, nth_error (f_frames f) k = Some fr -> nth_error (fr_cels fr) l = Some (Some x) ->
    match cc_content x with
    | CImage _ => True
    | CLinked p => exists fr' x' im, nth_error (f_frames f) (Z.to_nat p) = Some fr' /\
        nth_error (fr_cels fr') l = Some (Some x') /\ cc_content x' = CImage im
    | _ => False
    end.
Proof. exact build_fails. Qed.
Print Assumptions C28_loads_iff.

Example C28_example : (* frame 1 links to frame 0; a link to itself is refused *)
  (exists s a b, load dbg64
    (hdr 2 32 1 1 ++ frm [layer_ch 1 0 0 255 [97]; raw_cel_ch 0 0 0 255 1 1 [1; 2; 3; 4]]
                  ++ frm [linked_cel_ch 0 5 6 0]) = Ok s /\
    map sf_cels (api_frames s) = [[a]; [b]] /\ fc_image_index a = 0 /\ fc_image_index b = 0 /\
    fc_origin b = (5, 6) /\ api_image_count s = 1) /\
  load dbg64 (hdr 1 32 1 1 ++ frm [layer_ch 1 0 0 255 [97]; linked_cel_ch 0 0 0 0]) =
    Err (LInvalidLinkedCel 0 0).
Proof. split; [|vm_compute; reflexivity]. do 3 eexists. split; [vm_compute; reflexivity|]. repeat split. Qed.

(** ** C29 *)
(** Refuted: a tilemap layer is dropped from [layers] but still counted in the
    layer indices, so that an index names another layer or none. *)
Theorem C29_layer_index_refuted : forall c, cfg_ok c ->
  exists i s sf fc1 fc2, is_bytes i /\ addressable c i /\ load c i = Ok s /\
    api_frames s = [sf] /\ sf_cels sf = [fc1; fc2] /\
    fc_layer_index fc1 = 1 /\
    option_map lc_name (nth_error (f_layers (af_file s)) 1) = Some [97] /\
    option_map ly_name (nth_error (api_layers s) 1) = Some [98] /\
    fc_layer_index fc2 = 2 /\ nth_error (api_layers s) 2 = None.
Proof. exact layers_shifted. Qed.
Print Assumptions C29_layer_index_refuted.

(** It holds for files with normal and group layers only. *)
Theorem C29_layer_index_partial : forall c i s, cfg_ok c -> is_bytes i -> addressable c i ->
  load c i = Ok s ->
  Forall (fun l => lc_layer_type l = LNormal \/ lc_layer_type l = LGroup) (f_layers (af_file s)) ->
  forall sf fc, In sf (api_frames s) -> In fc (sf_cels sf) ->
  0 <= fc_layer_index fc /\
  exists l ly, nth_error (f_layers (af_file s)) (Z.to_nat (fc_layer_index fc)) = Some l /\
    nth_error (api_layers s) (Z.to_nat (fc_layer_index fc)) = Some ly /\ ly_name ly = lc_name l /\
    ly_opacity ly = lc_opacity l /\ ly_blend_mode ly = lc_blend_mode l /\
    ly_layer_type ly = lc_layer_type l.
Proof. exact layers_indexed. Qed.
Print Assumptions C29_layer_index_partial.

Example C29_example : exists s, load dbg64 file_combine = Ok s /\
  map lc_layer_type (f_layers (af_file s)) = map ly_layer_type (api_layers s) /\ zlen (api_layers s) > 1.
Proof. eexists. split; [vm_compute; reflexivity|]. split; vm_compute; reflexivity. Qed.

(** ** C30 *)
Theorem C30_metadata : forall c i s, cfg_ok c -> is_bytes i -> addressable c i -> load c i = Ok s ->
  api_size s = (h_width (f_header (af_file s)), h_height (f_header (af_file s))) /\
  map sf_duration (api_frames s) = map fr_duration (f_frames (af_file s)) /\
  api_slices s = f_slices (af_file s) /\
  Forall2 (fun t g => stag_name g = tg_name t /\ stag_range g = (tg_from t, tg_to t) /\
             stag_direction g = tg_animation_direction t /\
             (tg_animation_repeat t = 0 -> stag_repeat g = None) /\
             (tg_animation_repeat t <> 0 -> stag_repeat g = Some (tg_animation_repeat t)))
          (f_tags (af_file s)) (api_tags s) /\
  Forall2 (fun l y => ly_name y = lc_name l /\ ly_opacity y = lc_opacity l /\
             ly_blend_mode y = lc_blend_mode l /\ ly_visible y = Z.testbit (lc_flags l) 0 /\
             ly_layer_type y = lc_layer_type l)
          (filter (fun l => match lc_layer_type l with LNormal | LGroup => true | _ => false end)
                  (f_layers (af_file s)))
          (api_layers s).
Proof. exact metadata_kept. Qed.
Print Assumptions C30_metadata.

Example C30_example : exists s, load dbg64 file_tags = Ok s /\ map stag_repeat (api_tags s) <> [] /\
  api_layers s <> [].
Proof. eexists. split; [vm_compute; reflexivity|]. split; discriminate. Qed.
