(** Properties of [AsepriteFile::load_image] (C31-C34, C52).  [inflate] stands
    for zlib; [inflate_ok] says that it stays inside its output buffer. *)
From Verif.Model Require Import Loader.
From Verif.Spec Require Import Bytes ImageSpec.
From Verif.Proofs Require Import BinaryFinal ImageFacts ImageProps.
From Verif.Tests Require Import Configs TestData Build.

(** ** C31 *)
Theorem C31_too_small : forall c i s, cfg_ok c -> is_bytes i -> addressable c i -> load c i = Ok s ->
  forall inflate j im target, nth_error (af_images s) j = Some im -> sizes_fit c im ->
  zlen target < rgba_size im ->
  load_image c inflate s (Z.of_nat j) target = Err (TargetBufferTooSmall, target).
Proof. exact too_small. Qed.
Print Assumptions C31_too_small.

(** With every outcome the length is kept and nothing behind the image is
    touched; a buffer called too small is left alone. *)
Theorem C31_buffer : forall c inflate s j im target r, cfg_ok c -> inflate_ok inflate ->
  nth_error (af_images s) j = Some im -> 0 <= im_width im -> 0 <= im_height im ->
  load_image c inflate s (Z.of_nat j) target = r ->
  match r with
  | Ok t | Err (_, t) => zlen t = zlen target /\
      skipn (Z.to_nat (rgba_size im)) t = skipn (Z.to_nat (rgba_size im)) target
  | Panic _ => True
  end /\
  (forall t, r = Err (TargetBufferTooSmall, t) -> t = target).
Proof. exact load_image_keeps. Qed.
Print Assumptions C31_buffer.

(** Decoders used in the examples: one that always fails, one that yields
    [data] itself. *)
Definition no_inflate : inflater := fun _ _ => (ZError, []).

Definition rgba_file : bytes :=
  hdr 1 32 2 1 ++ frm [layer_ch 1 0 0 255 [97]; raw_cel_ch 0 0 0 255 2 1 [1; 2; 3; 4; 5; 6; 7; 8]].
Example C31_example : exists s, load dbg64 rgba_file = Ok s /\
  load_image dbg64 no_inflate s 0 [9; 9; 9; 9; 9; 9; 9] =
    Err (TargetBufferTooSmall, [9; 9; 9; 9; 9; 9; 9]) /\
  load_image dbg64 no_inflate s 0 [9; 9; 9; 9; 9; 9; 9; 9; 9; 9] = Ok [1; 2; 3; 4; 5; 6; 7; 8; 9; 9].
Proof. eexists. split; [vm_compute; reflexivity|]. split; vm_compute; reflexivity. Qed.
Example C31_example_contract : inflate_ok no_inflate.
Proof. intros d n H. split; [exact H|constructor]. Qed.

(** ** C32 *)
(** Exactly when [load_image] succeeds, and with what. *)
Theorem C32_success : forall c i s, cfg_ok c -> is_bytes i -> addressable c i -> load c i = Ok s ->
  forall inflate, inflate_ok inflate ->
  forall j im target, nth_error (af_images s) j = Some im -> sizes_fit c im -> addressable c target ->
  forall r, load_image c inflate s (Z.of_nat j) target = Ok r <->
    rgba_size im <= zlen target /\
    exists rgba, decoded inflate (af_file s) im (firstn (Z.to_nat (rgba_size im)) target) rgba /\
      r = rgba ++ skipn (Z.to_nat (rgba_size im)) target.
Proof. exact load_image_ok. Qed.
Print Assumptions C32_success.

(** Pixel by pixel. *)
Theorem C32_pixels : forall c i s inflate j im target r,
  cfg_ok c -> is_bytes i -> addressable c i -> load c i = Ok s ->
  inflate_ok inflate -> nth_error (af_images s) j = Some im -> sizes_fit c im -> addressable c target ->
  load_image c inflate s (Z.of_nat j) target = Ok r ->
  forall k, Z.of_nat k < im_width im * im_height im ->
  match h_color_depth (f_header (af_file s)) with
  | Rgba => exists px q, stored inflate im (firstn (Z.to_nat (rgba_size im)) target) px /\
      quad px k = Some q /\ quad r k = Some q
  | Grayscale => exists px v a,
      stored inflate im (repeat 0 (2 * Z.to_nat (im_width im * im_height im))) px /\
      nth_error px (2 * k) = Some v /\ nth_error px (2 * k + 1) = Some a /\
      quad r k = Some (v, v, v, a)
  | Indexed => exists px pal p x,
      stored inflate im (repeat 0 (Z.to_nat (im_width im * im_height im))) px /\
      f_palette (af_file s) = Some pal /\ nth_error px k = Some p /\ 0 <= p /\
      nth_error pal (Z.to_nat p) = Some x /\
      quad r k = Some (red x, green x, blue x, alpha x)
  | DUnknown _ => False
  end.
Proof. exact load_image_pixels. Qed.
Print Assumptions C32_pixels.

Example C32_example : (* grayscale, then indexed with entry 0 transparent *)
  (exists s, load dbg64 (hdr 1 16 2 1 ++ frm [layer_ch 1 0 0 255 [97]; raw_cel_ch 0 0 0 255 2 1 [10; 20; 30; 40]]) = Ok s /\
    load_image dbg64 no_inflate s 0 (repeat 7 8) = Ok [10; 10; 10; 20; 30; 30; 30; 40]) /\
  (exists s, load dbg64 (hdr 1 8 2 1 ++ frm [old_palette_ch 4 [(0, [(1, 2, 3); (4, 5, 6)])];
                          layer_ch 1 0 0 255 [97]; raw_cel_ch 0 0 0 255 2 1 [1; 0]]) = Ok s /\
    load_image dbg64 no_inflate s 0 (repeat 7 8) = Ok [4; 5; 6; 255; 1; 2; 3; 0]).
Proof. split; (eexists; split; [vm_compute; reflexivity|vm_compute; reflexivity]). Qed.

(** ** C33 *)
(** Refuted: zlib reports the end of the stream of an image that is too short,
    [load_image] succeeds and leaves the old contents of the buffer.  The
    hypothesis is what zlib does with the compressed form of nothing. *)
Theorem C33_stale_refuted : forall c inflate, cfg_ok c ->
  inflate [0x78; 0x9c; 3; 0; 0; 0; 0; 1] 4 = (ZStreamEnd, []) ->
  exists i s, is_bytes i /\ addressable c i /\ load c i = Ok s /\ api_image_count s = 1 /\
    forall target, zlen target = 4 -> load_image c inflate s 0 target = Ok target.
Proof. exact stale_pixels. Qed.
Print Assumptions C33_stale_refuted.

(** It holds in all other cases: unless a compressed RGBA image is too short. *)
Theorem C33_overwritten_partial : forall c i s inflate j im target target' r,
  cfg_ok c -> is_bytes i -> addressable c i -> load c i = Ok s ->
  inflate_ok inflate -> nth_error (af_images s) j = Some im -> sizes_fit c im ->
  addressable c target -> addressable c target' ->
  (h_color_depth (f_header (af_file s)) = Rgba -> im_compressed im = true ->
   forall w, inflate (im_data im) (rgba_size im) = (ZStreamEnd, w) -> zlen w = rgba_size im) ->
  load_image c inflate s (Z.of_nat j) target = Ok r -> rgba_size im <= zlen target' ->
  exists r', load_image c inflate s (Z.of_nat j) target' = Ok r' /\
    firstn (Z.to_nat (rgba_size im)) r' = firstn (Z.to_nat (rgba_size im)) r.
Proof. exact overwritten. Qed.
Print Assumptions C33_overwritten_partial.

Example C33_example : exists s, load dbg64 rgba_file = Ok s /\
  load_image dbg64 no_inflate s 0 (repeat 9 8) = load_image dbg64 no_inflate s 0 (repeat 7 8).
Proof. eexists. split; [vm_compute; reflexivity|vm_compute; reflexivity]. Qed.

(** ** C34 *)
Theorem C34_wrong_length_refuted : forall c inflate, cfg_ok c ->
  exists i s, is_bytes i /\ addressable c i /\ load c i = Ok s /\ api_image_count s = 1 /\
    load_image c inflate s 0 [0; 0; 0; 0] = Panic PCopyLen.
Proof. exact wrong_length. Qed.
Print Assumptions C34_wrong_length_refuted.

(** Exactly when it panics: uncompressed RGBA data of the wrong length. *)
Theorem C34_panics_partial : forall c i s, cfg_ok c -> is_bytes i -> addressable c i -> load c i = Ok s ->
  forall inflate, inflate_ok inflate ->
  forall j im target, nth_error (af_images s) j = Some im -> sizes_fit c im -> addressable c target ->
  forall q, load_image c inflate s (Z.of_nat j) target = Panic q <->
    q = PCopyLen /\ rgba_size im <= zlen target /\ h_color_depth (f_header (af_file s)) = Rgba /\
    im_compressed im = false /\ zlen (im_data im) <> rgba_size im.
Proof. exact load_image_panic. Qed.
Print Assumptions C34_panics_partial.

(** ** C52 *)
(** All sizes fit on 64 bit targets, ... *)
Theorem C52_64_bit : forall c i s, cfg_ok c -> is_bytes i -> addressable c i -> load c i = Ok s ->
  forall im, usize_bits c = 64 -> In im (af_images s) -> sizes_fit c im.
Proof. exact wide_in_range. Qed.
Print Assumptions C52_64_bit.

(** ... and when they do the test is exact. *)
Theorem C52_image_test_partial : forall c i s inflate j im target,
  cfg_ok c -> is_bytes i -> addressable c i -> load c i = Ok s ->
  inflate_ok inflate -> nth_error (af_images s) j = Some im -> sizes_fit c im -> addressable c target ->
  (exists t, load_image c inflate s (Z.of_nat j) target = Err (TargetBufferTooSmall, t)) <->
  zlen target < im_width im * im_height im * 4.
Proof. exact size_test. Qed.
Print Assumptions C52_image_test_partial.

(** Refuted for 32 bit targets: 32768 x 32768 x 4 is 0 there (release), or an
    overflow (debug), for images and for the canvas. *)
Theorem C52_32_bit_refuted : forall inflate,
  exists i s im, is_bytes i /\ addressable rel32 i /\ load rel32 i = Ok s /\ load dbg32 i = Ok s /\
    af_images s = [im] /\ rgba_size im = 4294967296 /\
    load_image rel32 inflate s 0 [] = Ok [] /\ load_image dbg32 inflate s 0 [] = Panic POverflow /\
    render_frame rel32 inflate s 0 [] (SelMask []) = Ok [] /\
    render_frame dbg32 inflate s 0 [] (SelMask []) = Panic POverflow.
Proof. exact size_wraps. Qed.
Print Assumptions C52_32_bit_refuted.

Example C52_example : exists s, load dbg64 huge_file = Ok s /\
  load_image dbg64 no_inflate s 0 [] = Err (TargetBufferTooSmall, []).
Proof. eexists. split; [vm_compute; reflexivity|vm_compute; reflexivity]. Qed.
