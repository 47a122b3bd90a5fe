(** The outcome of [AsepriteFile::load], completely (C93, C94; C01 for panics). *)
From Verif.Model Require Import Loader.
From Verif.Spec Require Import Bytes Format Encode FileSpec LoaderSpec Errors Loads.
From Verif.Proofs Require Import LoadsProps OverflowProps WrittenProps.
From Verif.Tests Require Import Configs Build.

(** ** C93 *)
(** The sprite returned is the one the file stands for ... *)
Theorem C93_exact : forall c i s, cfg_ok c -> is_bytes i -> addressable c i ->
  (load c i = Ok s <-> exists raw, raw_file_l (kept_error c) raw i /\ stands_for raw s).
Proof. exact load_exactly. Qed.
Print Assumptions C93_exact.

(** ... and there is only one. *)
Theorem C93_unique : forall c i raw s s', cfg_ok c -> is_bytes i -> addressable c i ->
  raw_file_l (kept_error c) raw i -> stands_for raw s -> stands_for raw s' -> s = s'.
Proof. exact stands_for_same. Qed.
Print Assumptions C93_unique.

Theorem C93_file : forall c i f, cfg_ok c -> is_bytes i -> addressable c i ->
  (parse_file c i = Ok f <-> exists raw, raw_file_l (kept_error c) raw i /\ complete_file raw f).
Proof. exact parse_file_complete. Qed.
Print Assumptions C93_file.

(** The error is that of [parse_file], or tells what is wrong with the first cel
    that cannot be used. *)
Theorem C93_refused : forall c i e, cfg_ok c -> is_bytes i -> addressable c i ->
  (load c i = Err e <->
   (exists x, e = LParse x /\ parse_file c i = Err x) \/
   exists raw f before k x after, raw_file_l (kept_error c) raw i /\ complete_file raw f /\
     file_cels (f_frames f) = before ++ (k, x) :: after /\ cel_wrong (f_frames f) k x e /\
     Forall (fun '(k, x) => forall e, ~ cel_wrong (f_frames f) k x e) before).
Proof. exact load_refused. Qed.
Print Assumptions C93_refused.

Definition two_frames (second : list bytes) : bytes :=
  hdr 2 32 1 1 ++
  frm [layer_ch 1 0 0 255 [97]; layer_ch 0 1 0 7 [98]; layer_ch 1 0 3 9 [99];
       raw_cel_ch 2 4 5 6 1 1 [1; 2; 3; 4]; tags_ch [(0, 1, [116])]] ++ frm second.
Example C93_example : (* the second layer is a group; the second frame shows the image of the first *)
  (exists s, load dbg64 (two_frames [linked_cel_ch 2 8 9 0]) = Ok s /\
    map (fun l => (ly_name l, ly_visible l, ly_opacity l)) (af_layers s) =
      [([97], true, 255); ([98], false, 7); ([99], true, 9)] /\
    map stag_range (af_tags s) = [(0, 1)] /\ length (af_images s) = 1%nat /\
    map (fun f => map fc_image_index (sf_cels f)) (af_frames s) = [[0]; [0]]) /\
  load rel32 (two_frames [linked_cel_ch 0 8 9 0; linked_cel_ch 2 8 9 0]) = Err (LInvalidLinkedCel 1 0) /\
  load rel64 (two_frames [linked_cel_ch 2 8 9 0; cel_ch 0 0 0 255 3 (repeat 0 32)]) = Err LInvalidCel.
Proof.
  split; [eexists; split; [vm_compute; reflexivity|]; vm_compute; auto|]. split; vm_compute; reflexivity.
Qed.

(** ** C94 *)
(** A file with anything in it (linked cels, tags, slices, user data, palettes,
    chunks that are not used), written by [enc_file], is loaded as what it stands for. *)
Theorem C94_written : forall c raw s, cfg_ok c -> wf_file raw -> addressable c (enc_file raw) ->
  (load c (enc_file raw) = Ok s <-> stands_for raw s).
Proof. exact load_written. Qed.
Print Assumptions C94_written.
Theorem C94_usable : forall c raw, cfg_ok c -> wf_file raw -> addressable c (enc_file raw) ->
  ((exists s, load c (enc_file raw) = Ok s) <-> usable raw).
Proof. exact load_writable. Qed.
Print Assumptions C94_usable.
(** All sprites that [load] returns can be written in this way (when no properties
    area was kept as an error). *)
Theorem C94_range : forall c s, cfg_ok c ->
  ((exists raw, wf_file raw /\ addressable c (enc_file raw) /\ stands_for raw s) <->
   exists i raw, is_bytes i /\ addressable c i /\ parse_raw_file c i = Ok raw /\ no_map_error raw /\ load c i = Ok s).
Proof. exact sprite_range. Qed.
Print Assumptions C94_range.

(** A linked cel, a tag with a text, a slice, and a layer with a colour *)
Definition with_everything : raw_file :=
  let text := ChUserData {| ud_text := Some [120]; ud_color := None; ud_properties_maps := None |} in
  {| rw_header := {| h_file_size := 0; h_frames := 2; h_width := 1; h_height := 1; h_color_depth := Rgba; h_flags := 1;
       h_speed := 100; h_transparent_index := 0; h_color_count := 0; h_pixel_width := 1; h_pixel_height := 1; h_grid_x := 0;
       h_grid_y := 0; h_grid_width := 16; h_grid_height := 16 |};
     rw_frames :=
       [{| rf_duration := 7; rf_chunks :=
          [ChLayer {| lc_flags := 1; lc_layer_type := LNormal; lc_child_level := 0; lc_blend_mode := BNormal; lc_opacity := 255;
             lc_name := [97]; lc_tileset_index := None; lc_user_data := None |}; text;
           ChCel {| cc_layer_index := 0; cc_x := 1; cc_y := 2; cc_opacity := 255; cc_z_index := 0; cc_user_data := None;
             cc_content := CImage {| im_width := 1; im_height := 1; im_data := [1; 2; 3; 4]; im_compressed := false |} |};
           ChTags {| tc_tags := [{| tg_from := 0; tg_to := 1; tg_animation_direction := DForward; tg_animation_repeat := 3;
             tg_color := [0; 0; 0]; tg_name := [116]; tg_user_data := None |}] |}; text] |};
        {| rf_duration := 8; rf_chunks :=
          [ChCel {| cc_layer_index := 0; cc_x := 3; cc_y := -4; cc_opacity := 255; cc_z_index := 0; cc_user_data := None;
             cc_content := CLinked 0 |};
           ChSlice {| sc_name := [115]; sc_flags := 0; sc_user_data := None; sc_slice_keys := [] |}; text] |}] |}.
Example C94_example : exists s, load dbg64 (enc_file with_everything) = Ok s /\
  map (fun f => (sf_duration f, map (fun x => (fc_origin x, fc_image_index x)) (sf_cels f))) (af_frames s) =
    [(7, [((1, 2), 0)]); (8, [((3, -4), 0)])] /\
  map (fun t => (stag_name t, stag_range t, stag_repeat t)) (af_tags s) = [([116], (0, 1), Some 3)] /\
  map (fun x => option_map ud_text (sc_user_data x)) (f_slices (af_file s)) = [Some (Some [120])].
Proof. eexists. split; [vm_compute; reflexivity|]. vm_compute. auto. Qed.

(** ** C01 *)
(** [load] panics for exactly these inputs: in debug builds if user data claim an
    area for properties of fewer than 8 bytes, and in all builds if the first cel
    without a layer has the index just behind the last layer. *)
Theorem C01_exactly_partial : forall c i q, cfg_ok c -> is_bytes i -> addressable c i ->
  (load c i = Panic q <->
   (q = POverflow /\ debug c = true /\ overruns c i) \/ (q = PIndex /\ next_layer c i)).
Proof. exact load_panics_exactly. Qed.
Print Assumptions C01_exactly_partial.

(** The number of bytes decides; what is in front of it may be anything readable,
    what follows anything at all. *)
Example C01_exactly_example :
  let area n := hdr 2 32 1 1 ++ frm [layer_ch 1 0 0 255 [97]] ++ frm [text_ch [98]; properties_ch n; [1]] in
  load dbg64 (area 7) = Panic POverflow /\ load dbg32 (area 0) = Panic POverflow /\
  (exists e, load dbg64 (area 8) = Err e) /\ (exists e, load rel64 (area 7) = Err e).
Proof.
  cbv zeta. split; [vm_compute; reflexivity|]. split; [vm_compute; reflexivity|].
  split; eexists; vm_compute; reflexivity.
Qed.
