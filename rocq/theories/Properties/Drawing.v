(** Whole sprites written and loaded (C65) and damaged images (C66), with a
    decompressor for zlib streams (Model/Inflate.v) instead of an oracle. *)
From Verif.Model Require Import Loader Inflate.
From Verif.Spec Require Import Bytes Encode LoaderSpec ImageSpec Zlib Drawing.
From Verif.Proofs Require Import Utf8Facts DrawingProps ZlibProps.
From Verif.Tests Require Import Configs Build.

(** ** C65 *)
Theorem C65_round_trip : forall c inflate d, cfg_ok c -> inflate_ok inflate -> reads_stored inflate ->
  wf_drawing d ->
  exists s, load c (drawing_file d) = Ok s /\
    api_size s = dr_size d /\ api_layers s = dr_layers d /\
    Forall2 (fun f sf => sf_duration sf = fst f /\
        Forall2 (shows_picture c inflate s (dr_colours d)) (pictures (snd f)) (sf_cels sf))
      (dr_frames d) (api_frames s).
Proof. exact drawing_loads. Qed.
Print Assumptions C65_round_trip.

(** The hypotheses about the decompressor are satisfiable: this one reads them. *)
Theorem C65_zlib : inflate_ok inflate_zlib /\ reads_stored inflate_zlib.
Proof. exact zlib_contract. Qed.
Print Assumptions C65_zlib.

(** Two layers and two frames: a compressed 2x1 picture in two blocks, a plain
    1x1 picture to the left of the canvas, a frame with one picture. *)
Definition two_frames : drawing :=
  let ly name op := {| ly_name := name; ly_opacity := op; ly_blend_mode := BNormal; ly_visible := true;
                       ly_layer_type := LNormal |} in
  {| dr_size := (2, 2); dr_colours := TrueColour; dr_layers := [ly [97] 255; ly [98] 128];
     dr_frames :=
       [(100, [Some {| pic_origin := (0, 1); pic_size := (2, 1);
                       pic_blocks := [[1; 2; 3]; [255; 5; 6; 7; 8]]; pic_compressed := true |};
               Some {| pic_origin := (-1, 0); pic_size := (1, 1);
                       pic_blocks := [[9; 9; 9; 9]]; pic_compressed := false |}]);
        (50, [None; Some {| pic_origin := (1, 0); pic_size := (1, 1);
                            pic_blocks := [[10; 11; 12; 255]]; pic_compressed := true |}])] |}.
Ltac closed_range := split; [vm_compute; discriminate|vm_compute; reflexivity].
Ltac closed_drawing :=
  unfold wf_drawing, wf_sprite_layer, wf_picture, wf_string, storable, wf_colours, wf_color;
  repeat first [split; [closed_range..] | apply conj | apply Forall_cons | apply Forall_nil
               | apply from_utf8_valid; reflexivity | now left | discriminate | closed_range | exact I
               | reflexivity | vm_compute; discriminate].
Example C65_example : wf_drawing two_frames /\
  exists s, load rel32 (drawing_file two_frames) = Ok s /\
    map (fun f => (sf_duration f, map (fun x => (fc_layer_index x, fc_origin x, fc_size x)) (sf_cels f)))
        (api_frames s) =
      [(100, [(0, (0, 1), (2, 1)); (1, (-1, 0), (1, 1))]); (50, [(1, (1, 0), (1, 1))])] /\
    load_image rel32 inflate_zlib s 0 (repeat 0 9) = Ok [1; 2; 3; 255; 5; 6; 7; 8; 0] /\
    load_image rel32 inflate_zlib s 2 (repeat 0 4) = Ok [10; 11; 12; 255].
Proof.
  split.
  - closed_drawing.
  - eexists. split; [vm_compute; reflexivity|]. split; [vm_compute; reflexivity|].
    split; vm_compute; reflexivity.
Qed.

(** Three colours, the second of which is transparent; and greys. *)
Definition one_picture (m : colours) (pixels : bytes) : drawing :=
  {| dr_size := (2, 2); dr_colours := m;
     dr_layers := [{| ly_name := []; ly_opacity := 255; ly_blend_mode := BNormal; ly_visible := true;
                      ly_layer_type := LNormal |}];
     dr_frames := [(100, [Some {| pic_origin := (0, 0); pic_size := (2, 2); pic_blocks := [pixels];
                                  pic_compressed := true |}])] |}.
Definition three_colours : colours :=
  Palette [{| red := 1; green := 2; blue := 3; alpha := 255 |}; {| red := 4; green := 5; blue := 6; alpha := 255 |};
           {| red := 7; green := 8; blue := 9; alpha := 100 |}] 1.
Example C65_indexed : wf_drawing (one_picture three_colours [0; 1; 2; 3]) /\
  exists s, load dbg64 (drawing_file (one_picture three_colours [0; 1; 2; 3])) = Ok s /\
    load_image dbg64 inflate_zlib s 0 (repeat 77 16) =
      Ok [1; 2; 3; 255; 4; 5; 6; 0; 7; 8; 9; 100; 0; 0; 0; 0].
Proof.
  split; [closed_drawing|]. eexists. split; [vm_compute; reflexivity|]. vm_compute. reflexivity.
Qed.
Example C65_greys : wf_drawing (one_picture Greys [0; 1; 2; 3; 4; 5; 6; 7]) /\
  exists s, load dbg64 (drawing_file (one_picture Greys [0; 1; 2; 3; 4; 5; 6; 7])) = Ok s /\
    load_image dbg64 inflate_zlib s 0 (repeat 77 16) =
      Ok [0; 0; 0; 1; 2; 2; 2; 3; 4; 4; 4; 5; 6; 6; 6; 7].
Proof.
  split; [closed_drawing|]. eexists. split; [vm_compute; reflexivity|]. vm_compute. reflexivity.
Qed.

(** ** C66 *)
(** The full claim is that [load_image] succeeds only if the checksum is right
    and the stream holds exactly the bytes of the image.  Wrong checksums and
    streams that are too long are reported ... *)
Theorem C66_damaged_partial : forall c i s j im target bs v rest,
  cfg_ok c -> is_bytes i -> addressable c i -> load c i = Ok s ->
  nth_error (af_images s) j = Some im -> sizes_fit c im -> addressable c target ->
  rgba_size im <= zlen target ->
  im_compressed im = true -> im_data im = stored_stream bs v rest -> storable bs -> 0 <= v < 2 ^ 32 ->
  (forall k, h_color_depth (f_header (af_file s)) <> DUnknown k) ->
  (v <> adler (concat bs) \/
   pixel_bytes (h_color_depth (f_header (af_file s))) im < zlen (concat bs)) ->
  exists t, load_image c inflate_zlib s (Z.of_nat j) target = Err (DecompressError, t).
Proof. exact damaged. Qed.
Print Assumptions C66_damaged_partial.

(** ... but every stream that is too short is accepted, in any colour depth and
    whatever follows it ... *)
Theorem C66_accepted : forall c i s j im target bs v rest,
  cfg_ok c -> is_bytes i -> addressable c i -> load c i = Ok s ->
  nth_error (af_images s) j = Some im -> sizes_fit c im -> addressable c target ->
  rgba_size im <= zlen target ->
  im_compressed im = true -> im_data im = stored_stream bs v rest -> storable bs -> 0 <= v < 2 ^ 32 ->
  (forall k, h_color_depth (f_header (af_file s)) <> DUnknown k) ->
  v = adler (concat bs) -> zlen (concat bs) <= pixel_bytes (h_color_depth (f_header (af_file s))) im ->
  exists t, load_image c inflate_zlib s (Z.of_nat j) target = Ok t.
Proof. exact undamaged. Qed.
Print Assumptions C66_accepted.

(** ... even an empty one: the buffer is returned as it was. *)
Theorem C66_short_refuted : forall c, cfg_ok c ->
  exists i s, is_bytes i /\ addressable c i /\ load c i = Ok s /\ api_image_count s = 1 /\
    forall target, zlen target = 4 -> load_image c inflate_zlib s 0 target = Ok target.
Proof. exact short_stream. Qed.
Print Assumptions C66_short_refuted.

(** One pixel with a wrong checksum, with too many bytes, with too few. *)
Definition one_pixel (data : bytes) : bytes :=
  hdr 1 32 1 1 ++ frm [layer_ch 1 0 0 255 [97]; zip_cel_ch 0 0 0 255 1 1 data].
Definition load_pixel (data : bytes) : option buf_out :=
  match load dbg64 (one_pixel data) with
  | Ok s => Some (load_image dbg64 inflate_zlib s 0 [9; 9; 9; 9])
  | _ => None
  end.
Example C66_example :
  load_pixel (zlib_stored [[1; 2]; [3; 4]]) = Some (Ok [1; 2; 3; 4]) /\
  load_pixel (stored_stream [[1; 2; 3; 4]] 0x0018000C []) = Some (Err (DecompressError, [1; 2; 3; 4])) /\
  load_pixel (zlib_stored [[1; 2; 3; 4; 5]]) = Some (Err (DecompressError, [1; 2; 3; 4])) /\
  load_pixel (zlib_stored [[1; 2; 3]] ++ [7]) = Some (Ok [1; 2; 3; 9]).
Proof. repeat split; vm_compute; reflexivity. Qed.
