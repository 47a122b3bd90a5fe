(** Sprites whose public fields were filled in or changed by the program that
    uses the crate (C101, C102). *)
From Verif.Model Require Import Loader Inflate.
From Verif.Spec Require Import Bytes ImageSpec BlendSpec RenderSpec Refusals Made.
From Verif.Proofs Require Import MadeProps.
From Verif.Tests Require Import Configs Build.

(** ** C101 *)
(** All outcomes of [load_image] on any value of type [AsepriteFile]: *)
Theorem C101_images : forall c s, cfg_ok c -> typed c s -> forall inflate, inflate_ok inflate ->
  forall j im target, nth_error (af_images s) j = Some im -> sizes_fit c im -> addressable c target ->
  let size := Z.to_nat (rgba_size im) in
  (forall r, load_image c inflate s (Z.of_nat j) target = Ok r <->
     rgba_size im <= zlen target /\
     exists rgba, decoded inflate (af_file s) im (firstn size target) rgba /\ r = rgba ++ skipn size target) /\
  (forall e t, load_image c inflate s (Z.of_nat j) target = Err (e, t) <->
     (zlen target < rgba_size im /\ e = TargetBufferTooSmall /\ t = target) \/
     (rgba_size im <= zlen target /\
      exists left, made_wrong inflate (af_file s) im (firstn size target) e left /\ t = left ++ skipn size target)) /\
  (forall q, load_image c inflate s (Z.of_nat j) target = Panic q <->
     q = PCopyLen /\ rgba_size im <= zlen target /\ h_color_depth (f_header (af_file s)) = Rgba /\
     im_compressed im = false /\ zlen (im_data im) <> rgba_size im).
Proof. exact made_load_image. Qed.
Print Assumptions C101_images.

Theorem C101_no_image : forall c inflate s j target, nth_error (af_images s) j = None ->
  load_image c inflate s (Z.of_nat j) target = Panic PIndex.
Proof. exact made_no_image. Qed.
Print Assumptions C101_no_image.

(** All outcomes of [render_frame]: success, ... *)
Theorem C101_exact : forall c s, cfg_ok c -> typed c s -> made_fits c s ->
  forall inflate, inflate_ok inflate ->
  forall sel k sf target r, nth_error (api_frames s) k = Some sf -> is_bytes target ->
  (render_frame c inflate s (Z.of_nat k) target sel = Ok r <->
   canvas_size s <= zlen target /\ zlen r = zlen target /\
   skipn (Z.to_nat (canvas_size s)) r = skipn (Z.to_nat (canvas_size s)) target /\
   (forall cel l, In cel (sf_cels sf) -> drawn s sel cel = Some l ->
      (exists view, cel_view inflate s cel view) /\ known_mode (ly_blend_mode l)) /\
   forall x y, 0 <= x < canvas_width s -> 0 <= y < canvas_height s ->
     exists back p, pixel (canvas_width s) target x y = Some back /\ pixel (canvas_width s) r x y = Some p /\
       stacked c inflate s sel x y (sf_cels sf) back p).
Proof. exact made_exactly. Qed.
Print Assumptions C101_exact.

(** ... the panics on frames that exist, ... *)
Theorem C101_panics : forall c s, cfg_ok c -> typed c s -> made_fits c s ->
  forall inflate, inflate_ok inflate ->
  forall sel k sf target, nth_error (api_frames s) k = Some sf -> is_bytes target ->
  forall q, render_frame c inflate s (Z.of_nat k) target sel = Panic q <->
    canvas_size s <= zlen target /\
    exists before cel after l, sf_cels sf = before ++ cel :: after /\ drawn s sel cel = Some l /\
      can_stack c inflate s sel before target /\ stuck c inflate s sel target before cel l q.
Proof. exact made_panics. Qed.
Print Assumptions C101_panics.

(** ... the only error, and a frame that does not exist. *)
Theorem C101_other : forall c s, cfg_ok c -> typed c s -> made_fits c s ->
  forall inflate, inflate_ok inflate -> forall sel k target, is_bytes target ->
  (forall e t, render_frame c inflate s (Z.of_nat k) target sel = Err (e, t) <->
     zlen target < canvas_size s /\ e = TargetBufferTooSmall /\ t = target) /\
  (nth_error (api_frames s) k = None -> canvas_size s <= zlen target ->
     render_frame c inflate s (Z.of_nat k) target sel = Panic PIndex).
Proof. exact made_other. Qed.
Print Assumptions C101_other.

(** The sprites that [load] returns are among them, and the bounds on sizes hold
    on 64-bit targets. *)
Theorem C101_loaded : forall c i s, cfg_ok c -> is_bytes i -> addressable c i -> load c i = Ok s ->
  typed c s /\ (sprite_fits c s -> made_fits c s).
Proof. exact loaded_typed. Qed.
Print Assumptions C101_loaded.
Theorem C101_wide : forall c s, usize_bits c = 64 -> typed c s ->
  Forall (fun im => zlen (im_data im) < 2 ^ 62) (af_images s) -> made_fits c s.
Proof. exact wide_made. Qed.
Print Assumptions C101_wide.

(** A sprite of one image of 2x1 pixels, with a cel of another size: *)
Definition image21 : image := {| im_width := 2; im_height := 1; im_data := [1; 2; 3; 255; 4; 5; 6; 255]; im_compressed := false |}.
Definition one_cel (depth : color_depth) (w h layer_index image_index : Z) : ase_file :=
  {| af_file := {| f_header := {| h_file_size := 0; h_frames := 1; h_width := 2; h_height := 2; h_color_depth := depth;
                     h_flags := 0; h_speed := 0; h_transparent_index := 0; h_color_count := 0;
                     h_pixel_width := 0; h_pixel_height := 0; h_grid_x := 0; h_grid_y := 0;
                     h_grid_width := 0; h_grid_height := 0 |};
                   f_palette := None; f_layers := []; f_frames := []; f_tags := []; f_slices := []; f_user_data := None |};
     af_layers := [{| ly_name := []; ly_opacity := 255; ly_blend_mode := BNormal; ly_visible := true; ly_layer_type := LNormal |}];
     af_frames := [{| sf_duration := 1; sf_origin := (0, 0);
                      sf_cels := [{| fc_origin := (0, 0); fc_size := (w, h); fc_layer_index := layer_index; fc_image_index := image_index |}] |}];
     af_tags := []; af_images := [image21] |}.
(** larger (its pixels are read in lines of one), smaller, not there, of a
    layer that is not there; and a sprite of indexed colours without palette. *)
Example C101_example :
  typed dbg64 (one_cel Rgba 1 3 0 0) /\ made_fits dbg64 (one_cel Rgba 1 3 0 0) /\
  render_frame dbg64 inflate_zlib (one_cel Rgba 1 3 0 0) 0 (repeat 9 17) SelAll =
    Ok ([1; 2; 3; 255; 9; 9; 9; 9] ++ [4; 5; 6; 255; 9; 9; 9; 9] ++ [9]) /\
  render_frame dbg64 inflate_zlib (one_cel Rgba 1 1 0 0) 0 (repeat 9 16) SelAll = Panic PUnwrap /\
  render_frame dbg64 inflate_zlib (one_cel Rgba 2 1 0 1) 0 (repeat 9 16) SelAll = Panic PIndex /\
  render_frame dbg64 inflate_zlib (one_cel Rgba 2 1 5 1) 0 (repeat 9 16) SelAll = Ok (repeat 9 16) /\
  load_image dbg64 inflate_zlib (one_cel Indexed 2 1 0 0) 0 (repeat 9 8) = Err (MissingPalette, repeat 9 8).
Proof.
  split; [|split].
  - unfold typed. split; [vm_compute; split; congruence|]. split; [vm_compute; split; congruence|].
    split; [discriminate|]. split.
    { constructor; [|constructor]. unfold typed_image. repeat split; try (vm_compute; congruence).
      cbn [im_data image21]. unfold is_bytes, is_byte. repeat (constructor; [lia|]). constructor. }
    split; [constructor; [split; vm_compute; congruence|constructor]|].
    constructor; [|constructor]. constructor; [|constructor]. unfold typed_cel. repeat split; vm_compute; congruence.
  - unfold made_fits, sizes_fit. split; [vm_compute; congruence|]. split.
    + constructor; [split; vm_compute; congruence|constructor].
    + constructor; [|constructor]. constructor; [vm_compute; congruence|constructor].
  - repeat apply conj; vm_compute; reflexivity.
Qed.

(** ** C102 *)
(** Setting the [visible] flags is another way to give a mask: the outcomes are
    the same, whatever they are. *)
Theorem C102_visible : forall c inflate s flags k target,
  render_frame c inflate (with_visible flags s) k target SelVisible = render_frame c inflate s k target (SelMask flags).
Proof. exact visible_is_mask. Qed.
Print Assumptions C102_visible.

(** A frame depends on nothing but its own cels, the layers, the images, the
    palette and three fields of the header: other frames, tags and the parsed
    file can be changed freely. *)
Theorem C102_depends : forall c inflate s s' k k' sf target sel,
  nth_error (api_frames s) k = Some sf -> nth_error (api_frames s') k' = Some sf ->
  same_canvas s s' -> f_palette (af_file s) = f_palette (af_file s') ->
  af_layers s = af_layers s' -> af_images s = af_images s' ->
  render_frame c inflate s (Z.of_nat k) target sel = render_frame c inflate s' (Z.of_nat k') target sel.
Proof. exact render_depends. Qed.
Print Assumptions C102_depends.

(** Two layers, of which the file shows the first, and the program the second. *)
Definition two_layers : bytes :=
  hdr 1 32 1 1 ++ frm [layer_ch 1 0 0 255 [97]; layer_ch 0 0 0 255 [98];
                       raw_cel_ch 0 0 0 255 1 1 [1; 2; 3; 255]; raw_cel_ch 1 0 0 255 1 1 [4; 5; 6; 255]].
Example C102_example : exists s, load dbg64 two_layers = Ok s /\
  render_frame dbg64 inflate_zlib s 0 [0; 0; 0; 0] SelVisible = Ok [1; 2; 3; 255] /\
  render_frame dbg64 inflate_zlib (with_visible [false; true] s) 0 [0; 0; 0; 0] SelVisible = Ok [4; 5; 6; 255].
Proof. eexists. split; [vm_compute; reflexivity|]. repeat apply conj; vm_compute; reflexivity. Qed.
