(** Properties that compare the crate with the published file format, where
    Spec/Published.v states how that differs from the layouts the crate reads,
    and with the meaning the header gives to its fields (C12, C18, C67-C70). *)
From Verif.Model Require Import Loader.
From Verif.Spec Require Import Bytes Format FileSpec LoaderSpec ImageSpec Published.
From Verif.Proofs Require Import BinaryFinal FileFinal PublishedProps.
From Verif.Tests Require Import Configs Build.

(** ** C12 *)
(** For all cels but tilemaps the published layout is the one read. *)
Theorem C12_published_partial : forall i r x, is_bytes i -> ~ is_tilemap x ->
  (parse_cel_chunk i = Ok (r, x) <-> r = [] /\ published_cel_l x i).
Proof. exact parse_cel_published. Qed.
Print Assumptions C12_published_partial.

(** Of tilemaps the masks for X and Y flips come back exchanged, always. *)
Theorem C12_published_exchanged : forall i r x, is_bytes i ->
  (parse_cel_chunk i = Ok (r, x) <-> r = [] /\ published_cel_l (exchange x) i).
Proof. exact parse_cel_exchanged. Qed.
Print Assumptions C12_published_exchanged.

(** Hence the full statement, C12_published_partial without [~ is_tilemap x], is false. *)
Theorem C12_published_refuted : exists x i, is_bytes i /\ is_tilemap x /\ published_cel_l x i /\
  parse_cel_chunk i = Ok ([], exchange x) /\ exchange x <> x.
Proof. exact tilemap_masks_exchanged. Qed.
Print Assumptions C12_published_refuted.

Example C12_published_example : (* a linked cel *)
  exists x, parse_cel_chunk (le 2 3 ++ les 2 (-1) ++ les 2 2 ++ le 1 255 ++ le 2 1 ++ les 2 0 ++ repeat 0 5 ++ le 2 7) = Ok ([], x) /\
    cc_content x = CLinked 7 /\ ~ is_tilemap x.
Proof. eexists. split; [vm_compute; reflexivity|]. split; [reflexivity|intros []]. Qed.

(** ** C18 *)
(** Property trees without maps inside maps are laid out as the crate reads
    them, so C18_maps_round_trip is about them. *)
Theorem C18_published_partial : forall ms e, nested_maps ms = 0 -> (published_maps_l ms e <-> maps_l ms e).
Proof. exact flat_maps. Qed.
Print Assumptions C18_published_partial.

(** No other tree is read back from its published form: the crate expects a key
    in front of each map inside a value, too. *)
Theorem C18_published_refuted : forall c ms area n r rest, cfg_ok c ->
  let i := le 4 (zlen area + 8) ++ le 4 n ++ area ++ r in
  is_bytes i -> addressable c i -> published_maps_l ms area -> 0 < nested_maps ms ->
  parse_properties_maps c i <> Ok (r, inl (rest, ms)).
Proof. exact nested_unreadable. Qed.
Print Assumptions C18_published_refuted.

(** {0: {"a": {}}}: the area is kept as an error. *)
Theorem C18_nested_refuted : forall c, cfg_ok c -> exists ms area e,
  published_maps_l ms area /\ nested_maps ms = 1 /\ is_bytes area /\
  parse_properties_maps c (le 4 (zlen area + 8) ++ le 4 (zlen ms) ++ area) = Ok ([], inr e).
Proof. exact nested_kept_as_error. Qed.
Print Assumptions C18_nested_refuted.

Example C18_published_example : (* {0: {"a": {}}} *)
  published_maps_l nested_tree nested_area /\ 0 < nested_maps nested_tree /\ zlen nested_area = 17.
Proof. split; [exact nested_published|]. split; reflexivity. Qed.

(** ** C67 *)
(** The components of a 0x0011 palette, which are at most 63, should be spread
    over 0 .. 255 ([widen]).  They are used as they are: the colours of such a
    file are all darker than a quarter of full brightness. *)
Theorem C67_six_bit_refuted : forall c i raw f p, cfg_ok c -> is_bytes i -> addressable c i ->
  raw_file_l (kept_error c) raw i -> new_palettes (rw_frames raw) = [] -> palettes_0004 (rw_frames raw) = [] ->
  Forall six_bit (palettes_0011 (rw_frames raw)) ->
  parse_file c i = Ok f -> f_palette f = Some p ->
  Forall (fun x => red x < 64 /\ green x < 64 /\ blue x < 64) p.
Proof. exact six_bit_dim. Qed.
Print Assumptions C67_six_bit_refuted.

Theorem C67_white_refuted : forall c inflate, cfg_ok c -> exists i raw s, is_bytes i /\ addressable c i /\
  parse_raw_file c i = Ok raw /\ new_palettes (rw_frames raw) = [] /\ palettes_0004 (rw_frames raw) = [] /\
  map (fun ch => map pk_colors (op_packets ch)) (palettes_0011 (rw_frames raw)) =
    [[[{| rgb_red := 0; rgb_green := 0; rgb_blue := 0 |}; {| rgb_red := 63; rgb_green := 63; rgb_blue := 63 |}]]] /\
  widen 63 = 255 /\
  load c i = Ok s /\ map im_data (af_images s) = [[1]] /\
  load_image c inflate s 0 [9; 9; 9; 9] = Ok [63; 63; 63; 255].
Proof. exact six_bit_white. Qed.
Print Assumptions C67_white_refuted.

(** [widen] is onto the ends and strictly increasing, so it is one of the ways
    to spread the components. *)
Example C67_widen : widen 0 = 0 /\ widen 32 = 130 /\ widen 63 = 255.
Proof. repeat split. Qed.

(** ** C68 *)
(** Flags 0, so the opacity 128 of the layer should not count and the pixel
    (200, 200, 200) should cover the black canvas. *)
Theorem C68_opacity_refuted : forall c inflate, cfg_ok c -> exists i s, is_bytes i /\ addressable c i /\
  load c i = Ok s /\ h_flags (f_header (af_file s)) = 0 /\ map lc_opacity (f_layers (af_file s)) = [128] /\
  render_frame c inflate s 0 [0; 0; 0; 255] SelAll = Ok [100; 100; 100; 255].
Proof. exact invalid_opacity_used. Qed.
Print Assumptions C68_opacity_refuted.

Example C68_example : (* the same sprite with the flag *)
  exists s, load dbg64 (opacity_file 1) = Ok s /\ h_flags (f_header (af_file s)) = 1 /\
    forall inflate, render_frame dbg64 inflate s 0 [0; 0; 0; 255] SelAll = Ok [100; 100; 100; 255].
Proof. eexists. split; [vm_compute; reflexivity|]. split; [reflexivity|]. intro. vm_compute. reflexivity. Qed.

(** ** C69 *)
(** The half that holds: a pixel of the transparent index decodes to alpha 0. *)
Theorem C69_transparent_partial : forall c i s inflate j im target r px k,
  cfg_ok c -> is_bytes i -> addressable c i -> load c i = Ok s ->
  inflate_ok inflate -> nth_error (af_images s) j = Some im -> sizes_fit c im -> addressable c target ->
  h_color_depth (f_header (af_file s)) = Indexed ->
  load_image c inflate s (Z.of_nat j) target = Ok r ->
  stored inflate im (repeat 0 (Z.to_nat (im_width im * im_height im))) px ->
  Z.of_nat k < im_width im * im_height im ->
  nth_error px k = Some (h_transparent_index (f_header (af_file s))) ->
  exists re g b, quad r k = Some (re, g, b, 0).
Proof. exact transparent_pixels. Qed.
Print Assumptions C69_transparent_partial.

(** .. but also on a background layer, where it should be drawn. *)
Theorem C69_background_refuted : forall c inflate, cfg_ok c -> exists i s, is_bytes i /\ addressable c i /\
  load c i = Ok s /\ map (fun l => contains (lc_flags l) LF_BACKGROUND) (f_layers (af_file s)) = [true] /\
  h_transparent_index (f_header (af_file s)) = 0 /\ map im_data (af_images s) = [[0]] /\
  load_image c inflate s 0 [9; 9; 9; 9] = Ok [10; 20; 30; 0] /\
  render_frame c inflate s 0 [9; 9; 9; 255] SelAll = Ok [9; 9; 9; 255].
Proof. exact background_transparent. Qed.
Print Assumptions C69_background_refuted.

Example C69_example : (* colour 1 of the same kind of file keeps its alpha *)
  exists s, load dbg64 (hdr 1 8 2 1 ++ frm [old_palette_ch 4 [(0, [(10, 20, 30); (40, 50, 60)])]; layer_ch 1 0 0 255 [97];
      raw_cel_ch 0 0 0 255 2 1 [1; 0]]) = Ok s /\
    forall inflate, load_image dbg64 inflate s 0 (repeat 9 8) = Ok [40; 50; 60; 255; 10; 20; 30; 0].
Proof. eexists. split; [vm_compute; reflexivity|]. intro. vm_compute. reflexivity. Qed.

(** ** C70 *)
(** Nothing but the size of the canvas, the colour depth and the transparent
    index is used of the header; in particular not the flag that says whether
    layers have a valid opacity (C68). *)
Theorem C70_header : forall c i i' raw raw' s, cfg_ok c -> is_bytes i -> addressable c i ->
  is_bytes i' -> addressable c i' ->
  raw_file_l (kept_error c) raw i -> raw_file_l (kept_error c) raw' i' ->
  rw_frames raw = rw_frames raw' -> same_picture_header (rw_header raw) (rw_header raw') ->
  load c i = Ok s ->
  exists s', load c i' = Ok s' /\ f_header (af_file s') = rw_header raw' /\
    api_layers s' = api_layers s /\ api_frames s' = api_frames s /\ api_tags s' = api_tags s /\
    api_slices s' = api_slices s /\ api_image_count s' = api_image_count s /\
    forall inflate, (forall j target, load_image c inflate s' j target = load_image c inflate s j target) /\
      forall k target sel, render_frame c inflate s' k target sel = render_frame c inflate s k target sel.
Proof. exact header_ignored. Qed.
Print Assumptions C70_header.

Example C70_example : (* the files of C68 *)
  exists raw raw', parse_raw_file dbg64 (opacity_file 0) = Ok raw /\ parse_raw_file dbg64 (opacity_file 1) = Ok raw' /\
    rw_frames raw = rw_frames raw' /\ same_picture_header (rw_header raw) (rw_header raw') /\
    rw_header raw <> rw_header raw'.
Proof.
  do 2 eexists. split; [vm_compute; reflexivity|]. split; [vm_compute; reflexivity|].
  split; [reflexivity|]. split; [repeat split|discriminate].
Qed.
