(** How much room the pictures of a sprite take (C107). *)
From Verif.Model Require Import Loader Inflate.
From Verif.Spec Require Import Bytes ImageSpec Zlib.
From Verif.Proofs Require Import MemoryProps.
From Verif.Tests Require Import Configs Build.

(** ** C107 *)
(** The full claim is that a picture that can be shown takes at most [K] bytes
    for each byte of the file, for a constant [K].  It holds for pictures that
    are not compressed, with [K = 4] ... *)
Theorem C107_plain_partial : forall c i s inflate j im target t,
  cfg_ok c -> is_bytes i -> addressable c i -> load c i = Ok s ->
  inflate_ok inflate -> nth_error (af_images s) j = Some im -> sizes_fit c im -> addressable c target ->
  im_compressed im = false -> load_image c inflate s (Z.of_nat j) target = Ok t ->
  rgba_size im <= 4 * zlen i.
Proof. exact plain_bound. Qed.
Print Assumptions C107_plain_partial.

(** ... and not for compressed ones, because the stream need not hold all the
    pixels: here is a file of 210 bytes with a canvas of a single pixel that
    [render_frame] draws after it asked for a buffer of 16 GiB, for every
    decompressor that reads a stream of one stored block of four bytes ... *)
Theorem C107_compressed_refuted : forall c inflate, usize_bits c = 64 -> inflate_ok inflate ->
  inflate (zlib_stored [[1; 2; 3; 4]]) 17179344900 = (ZStreamEnd, [1; 2; 3; 4]) ->
  exists i s im, is_bytes i /\ zlen i = 210 /\ load c i = Ok s /\ api_size s = (1, 1) /\ af_images s = [im] /\
    rgba_size im = 17179344900 /\
    (forall target, addressable c target -> zlen target < 17179344900 ->
       exists t, load_image c inflate s 0 target = Err (TargetBufferTooSmall, t)) /\
    render_frame c inflate s 0 [0; 0; 0; 0] SelAll = Ok [1; 2; 3; 4].
Proof. exact bomb_drawn. Qed.
Print Assumptions C107_compressed_refuted.

(** ... as the one of Model/Inflate.v. *)
Theorem C107_zlib_refuted : forall c, usize_bits c = 64 ->
  exists i s im, is_bytes i /\ zlen i = 210 /\ load c i = Ok s /\ api_size s = (1, 1) /\ af_images s = [im] /\
    rgba_size im = 17179344900 /\
    (forall target, addressable c target -> zlen target < 17179344900 ->
       exists t, load_image c inflate_zlib s 0 target = Err (TargetBufferTooSmall, t)) /\
    render_frame c inflate_zlib s 0 [0; 0; 0; 0] SelAll = Ok [1; 2; 3; 4].
Proof. exact bomb_zlib. Qed.
Print Assumptions C107_zlib_refuted.

(** A plain picture of 2x2 indexed pixels takes 16 bytes, 4 in the file. *)
Definition four_indices : bytes :=
  hdr 1 8 2 2 ++ frm [palette_ch 2 0 1 [(1, 2, 3, 4); (5, 6, 7, 8)]; layer_ch 1 0 0 255 [97]; raw_cel_ch 0 0 0 255 2 2 [0; 1; 1; 0]].
Example C107_example : exists s im t, load dbg64 four_indices = Ok s /\ af_images s = [im] /\
  load_image dbg64 inflate_zlib s 0 [9; 9; 9; 9; 9; 9; 9; 9; 9; 9; 9; 9; 9; 9; 9; 9] = Ok t /\
  im_compressed im = false /\ rgba_size im = 16 /\ zlen (im_data im) = 4.
Proof. do 3 eexists. split; [vm_compute; reflexivity|]. split; [reflexivity|]. split; [vm_compute; reflexivity|]. repeat split; vm_compute; reflexivity. Qed.
