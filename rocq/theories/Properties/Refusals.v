(** Exactly when [load_image] and [render_frame] refuse, and with what (C96, C97). *)
From Verif.Model Require Import Loader Inflate.
From Verif.Spec Require Import Bytes ImageSpec BlendSpec RenderSpec Refusals.
From Verif.Proofs Require Import RefusalProps.
From Verif.Tests Require Import Configs Build.

(** ** C96 *)
(** Every error of [load_image], its cause, and the buffer afterwards.  With
    C32_success and C34_panics_partial all outcomes are described. *)
Theorem C96_errors : forall c i s, cfg_ok c -> is_bytes i -> addressable c i -> load c i = Ok s ->
  forall inflate, inflate_ok inflate ->
  forall j im target, nth_error (af_images s) j = Some im -> sizes_fit c im -> addressable c target ->
  forall e t, load_image c inflate s (Z.of_nat j) target = Err (e, t) <->
    (zlen target < rgba_size im /\ e = TargetBufferTooSmall /\ t = target) \/
    (rgba_size im <= zlen target /\
     exists left, image_wrong inflate (af_file s) im (firstn (Z.to_nat (rgba_size im)) target) e left /\
       t = left ++ skipn (Z.to_nat (rgba_size im)) target).
Proof. exact image_refused. Qed.
Print Assumptions C96_errors.

(** A compressed image that ends after two bytes: of RGBA pixels these two are
    left in the buffer, of grayscale pixels nothing is.  Then grayscale data
    that are too long, and a colour depth that does not exist. *)
Definition short_stream : bytes := [0x78; 1; 1; 8; 0; 247; 255; 1; 2].
Definition one_image (depth : Z) (cel : bytes) : bytes := hdr 1 depth 2 1 ++ frm [layer_ch 1 0 0 255 [97]; cel].
Example C96_example :
  (exists s, load dbg64 (one_image 32 (zip_cel_ch 0 0 0 255 2 1 short_stream)) = Ok s /\
    load_image dbg64 inflate_zlib s 0 (repeat 7 9) = Err (DecompressError, [1; 2; 7; 7; 7; 7; 7; 7; 7])) /\
  (exists s, load dbg64 (one_image 16 (zip_cel_ch 0 0 0 255 2 1 short_stream)) = Ok s /\
    load_image dbg64 inflate_zlib s 0 (repeat 7 9) = Err (DecompressError, repeat 7 9)) /\
  (exists s, load dbg64 (one_image 16 (raw_cel_ch 0 0 0 255 2 1 [1; 2; 3; 4; 5])) = Ok s /\
    load_image dbg64 inflate_zlib s 0 (repeat 7 9) = Err (InvalidImageData, repeat 7 9)) /\
  (exists s, load dbg64 (one_image 24 (raw_cel_ch 0 0 0 255 2 1 [1; 2; 3; 4])) = Ok s /\
    load_image dbg64 inflate_zlib s 0 (repeat 7 9) = Err (UnsupportedColorDepth, repeat 7 9)).
Proof. repeat apply conj; (eexists; split; [vm_compute; reflexivity|vm_compute; reflexivity]). Qed.

(** ** C97 *)
(** Every panic of [render_frame] on a frame that exists: it is caused by the
    first cel that cannot be drawn over what the cels before it leave.  With
    C36_too_small and C92_exact all outcomes are described. *)
Theorem C97_panics : forall c i s, cfg_ok c -> is_bytes i -> addressable c i -> load c i = Ok s ->
  forall inflate, inflate_ok inflate -> sprite_fits c s ->
  forall sel k sf target, nth_error (api_frames s) k = Some sf -> is_bytes target ->
  forall q, render_frame c inflate s (Z.of_nat k) target sel = Panic q <->
    canvas_size s <= zlen target /\
    exists before cel after l, sf_cels sf = before ++ cel :: after /\ drawn s sel cel = Some l /\
      can_draw c inflate s sel before target /\ hindered c inflate s sel target before cel l q.
Proof. exact frame_refused. Qed.
Print Assumptions C97_panics.

(** Three cels, of which each alone makes the program panic in its own way; what
    it panics with is decided by the lowest that is drawn.  The hue layer can be
    drawn over nothing, and not over the background. *)
Definition three_troubles : bytes :=
  hdr 1 32 1 1 ++
  frm [layer_ch 1 0 0 255 [97]; layer_ch 1 0 12 255 [98]; layer_ch 1 0 0 255 [99]; layer_ch 1 0 77 255 [100];
       raw_cel_ch 0 0 0 255 1 1 [9; 9; 9; 255]; raw_cel_ch 1 0 0 255 1 1 [1; 2; 3; 4];
       raw_cel_ch 2 0 0 255 1 1 [1; 2; 3]; raw_cel_ch 3 0 0 255 1 1 [1; 2; 3; 4]].
Example C97_example : exists s, load dbg64 three_troubles = Ok s /\
  render_frame dbg64 inflate_zlib s 0 [0; 0; 0; 0] SelAll = Panic PDebugAssert /\
  render_frame dbg64 inflate_zlib s 0 [0; 0; 0; 0] (SelMask [false; true; true; true]) = Panic PCopyLen /\
  render_frame dbg64 inflate_zlib s 0 [0; 0; 0; 0] (SelMask [true; false; false; true]) = Panic PExplicit /\
  render_frame dbg64 inflate_zlib s 0 [0; 0; 0; 0] (SelMask [true; false; false; false]) = Ok [9; 9; 9; 255].
Proof. eexists. split; [vm_compute; reflexivity|]. repeat apply conj; vm_compute; reflexivity. Qed.
