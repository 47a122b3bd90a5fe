(** Debug and release builds, 32 bit and 64 bit targets (C57, C58). *)
From Verif.Model Require Import Loader.
From Verif.Spec Require Import Bytes Format ImageSpec RenderSpec.
From Verif.Proofs Require Import Profile Width.
From Verif.Tests Require Import Configs Build.

(** ** C57 *)
Theorem C57_load : forall w i,
  (forall q, load {| debug := true; usize_bits := w |} i <> Panic q) ->
  load {| debug := false; usize_bits := w |} i = load {| debug := true; usize_bits := w |} i.
Proof. exact profile_load. Qed.
Print Assumptions C57_load.

Theorem C57_load_image : forall w inflate s k target,
  (forall q, load_image {| debug := true; usize_bits := w |} inflate s k target <> Panic q) ->
  load_image {| debug := false; usize_bits := w |} inflate s k target =
  load_image {| debug := true; usize_bits := w |} inflate s k target.
Proof. exact profile_load_image. Qed.
Print Assumptions C57_load_image.

Theorem C57_render_frame : forall w inflate s k target sel,
  (forall q, render_frame {| debug := true; usize_bits := w |} inflate s k target sel <> Panic q) ->
  render_frame {| debug := false; usize_bits := w |} inflate s k target sel =
  render_frame {| debug := true; usize_bits := w |} inflate s k target sel.
Proof. exact profile_render. Qed.
Print Assumptions C57_render_frame.

Theorem C57_combined_frame_image : forall w inflate hasher s k target,
  (forall q, combined_frame_image {| debug := true; usize_bits := w |} inflate hasher s k target <> Panic q) ->
  combined_frame_image {| debug := false; usize_bits := w |} inflate hasher s k target =
  combined_frame_image {| debug := true; usize_bits := w |} inflate hasher s k target.
Proof. exact profile_combined. Qed.
Print Assumptions C57_combined_frame_image.

Definition no_inflate : inflater := fun _ _ => (ZError, []).

(** A 2 x 1 canvas under one layer of the given blend mode. *)
Definition mode_file (mode : Z) : bytes :=
  hdr 1 32 2 1 ++
  frm [layer_ch 1 0 mode 200 [97]; raw_cel_ch 0 0 0 255 2 1 [10; 20; 30; 40; 50; 60; 70; 255]].

(** Soft light: both builds agree.  Hue: the debug build panics. *)
Example C57_agree : exists s, load dbg64 (mode_file 9) = Ok s /\ load rel64 (mode_file 9) = Ok s /\
  render_frame dbg64 no_inflate s 0 [100; 110; 120; 255; 5; 6; 7; 0] SelAll = Ok [94; 104; 120; 255; 50; 60; 70; 200] /\
  render_frame rel64 no_inflate s 0 [100; 110; 120; 255; 5; 6; 7; 0] SelAll = Ok [94; 104; 120; 255; 50; 60; 70; 200].
Proof.
  eexists. split; [vm_compute; reflexivity|]. split; [vm_compute; reflexivity|].
  split; [vm_compute; reflexivity|vm_compute; reflexivity].
Qed.
Example C57_differ : exists s, load dbg64 (mode_file 12) = Ok s /\ load rel64 (mode_file 12) = Ok s /\
  render_frame dbg64 no_inflate s 0 [100; 110; 120; 255; 5; 6; 7; 0] SelAll = Panic PDebugAssert /\
  exists r, render_frame rel64 no_inflate s 0 [100; 110; 120; 255; 5; 6; 7; 0] SelAll = Ok r.
Proof.
  eexists. split; [vm_compute; reflexivity|]. split; [vm_compute; reflexivity|].
  split; [vm_compute; reflexivity|]. eexists. vm_compute. reflexivity.
Qed.

(** ** C58 *)
Theorem C58_load : forall b i, is_bytes i -> addressable {| debug := b; usize_bits := 32 |} i ->
  load {| debug := b; usize_bits := 32 |} i = load {| debug := b; usize_bits := 64 |} i.
Proof. exact width_load. Qed.
Print Assumptions C58_load.

Theorem C58_load_image : forall b i s inflate k im target,
  is_bytes i -> addressable {| debug := b; usize_bits := 32 |} i ->
  load {| debug := b; usize_bits := 32 |} i = Ok s -> inflate_ok inflate ->
  nth_error (af_images s) k = Some im -> sizes_fit {| debug := b; usize_bits := 32 |} im ->
  load_image {| debug := b; usize_bits := 32 |} inflate s (Z.of_nat k) target =
  load_image {| debug := b; usize_bits := 64 |} inflate s (Z.of_nat k) target.
Proof. exact width_load_image. Qed.
Print Assumptions C58_load_image.

Theorem C58_render_frame : forall b i s inflate sel k target,
  is_bytes i -> addressable {| debug := b; usize_bits := 32 |} i ->
  load {| debug := b; usize_bits := 32 |} i = Ok s -> inflate_ok inflate ->
  sprite_fits {| debug := b; usize_bits := 32 |} s ->
  render_frame {| debug := b; usize_bits := 32 |} inflate s k target sel =
  render_frame {| debug := b; usize_bits := 64 |} inflate s k target sel.
Proof. exact width_render. Qed.
Print Assumptions C58_render_frame.

(** A user data chunk with properties whose stated size is 7, less than the 8
    bytes that the size itself and the count take: in release builds the
    subtraction wraps to a different number on each target, and both report the
    same error. *)
Definition wrapping_file : bytes :=
  hdr 1 32 1 1 ++ frm [encode_chunk 0x2020 ([4; 0; 0; 0] ++ [7; 0; 0; 0] ++ [0; 0; 0; 0])].
Example C58_wrapping : exists e, load rel32 wrapping_file = Err e /\ load rel64 wrapping_file = Err e.
Proof. eexists. split; [vm_compute; reflexivity|vm_compute; reflexivity]. Qed.
Example C58_example : exists s, load dbg32 (mode_file 9) = Ok s /\ load dbg64 (mode_file 9) = Ok s /\
  render_frame dbg32 no_inflate s 0 [100; 110; 120; 255; 5; 6; 7; 0] SelAll = Ok [94; 104; 120; 255; 50; 60; 70; 200].
Proof.
  eexists. split; [vm_compute; reflexivity|]. split; [vm_compute; reflexivity|vm_compute; reflexivity].
Qed.
