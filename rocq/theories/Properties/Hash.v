(** The hash that [combined_frame_image] returns, with std's [DefaultHasher]
    (Model/Hasher.v) instead of an oracle (C98). *)
From Verif.Model Require Import Hasher.
From Verif.Spec Require Import Bytes ImageSpec RenderSpec Hash.
From Verif.Proofs Require Import HashProps.
From Verif.Tests Require Import Configs Build.

(** ** C98 *)
(** What is hashed: the descriptions of all cels of the frame. *)
Theorem C98_hash : forall c inflate s k sf target, nth_error (api_frames s) k = Some sf ->
  combined_frame_image c inflate (default_hasher c) s (Z.of_nat k) target =
  match render_frame c inflate s (Z.of_nat k) target SelVisible with
  | Ok r => Ok (r, siphash13 0 0 (frame_record c sf))
  | Err e => Err e
  | Panic q => Panic q
  end /\ 0 <= siphash13 0 0 (frame_record c sf) < 2 ^ 64.
Proof. exact combined_hash. Qed.
Print Assumptions C98_hash.

(** Different cels have different descriptions, ... *)
Theorem C98_descriptions : forall c i s, cfg_ok c -> is_bytes i -> addressable c i -> load c i = Ok s ->
  forall k k' sf sf', nth_error (api_frames s) k = Some sf -> nth_error (api_frames s) k' = Some sf' ->
  frame_record c sf = frame_record c sf' <-> sf_cels sf = sf_cels sf'.
Proof. exact record_inj. Qed.
Print Assumptions C98_descriptions.

(** ... so that, unless SipHash has a collision, frames of one sprite with the
    same hash look the same. *)
Theorem C98_same_hash_partial : forall c i s, cfg_ok c -> is_bytes i -> addressable c i -> load c i = Ok s ->
  forall k k' sf sf', nth_error (api_frames s) k = Some sf -> nth_error (api_frames s) k' = Some sf' ->
  frame_record c sf = frame_record c sf' ->
  forall inflate target sel,
    render_frame c inflate s (Z.of_nat k) target sel = render_frame c inflate s (Z.of_nat k') target sel.
Proof. exact same_record. Qed.
Print Assumptions C98_same_hash_partial.

(** The converse is refuted: a picture stored twice has two hashes, ... *)
Theorem C98_same_look_refuted : forall c inflate, cfg_ok c ->
  exists i s h h', is_bytes i /\ addressable c i /\ load c i = Ok s /\
    (forall target sel, render_frame c inflate s 0 target sel = render_frame c inflate s 1 target sel) /\
    combined_frame_image c inflate (default_hasher c) s 0 [0; 0; 0; 0] = Ok ([1; 2; 3; 4], h) /\
    combined_frame_image c inflate (default_hasher c) s 1 [0; 0; 0; 0] = Ok ([1; 2; 3; 4], h') /\ h <> h'.
Proof. exact same_look_other_hash. Qed.
Print Assumptions C98_same_look_refuted.

(** ... the pictures of two sprites can have one, with any hasher, ... *)
Theorem C98_two_sprites_refuted : forall c inflate hasher, cfg_ok c ->
  exists i i' s s' h, is_bytes i /\ addressable c i /\ load c i = Ok s /\
    is_bytes i' /\ addressable c i' /\ load c i' = Ok s' /\
    combined_frame_image c inflate hasher s 0 [0; 0; 0; 0] = Ok ([1; 2; 3; 4], h) /\
    combined_frame_image c inflate hasher s' 0 [0; 0; 0; 0] = Ok ([5; 6; 7; 8], h).
Proof. exact other_look_same_hash. Qed.
Print Assumptions C98_two_sprites_refuted.

(** ... and the same file has another on targets of another pointer width. *)
Theorem C98_platform_refuted : forall b inflate,
  let c w := {| debug := b; usize_bits := w |} in
  exists i s h h', is_bytes i /\ addressable (c 32) i /\ load (c 32) i = Ok s /\ load (c 64) i = Ok s /\
    combined_frame_image (c 32) inflate (default_hasher (c 32)) s 0 [0; 0; 0; 0] = Ok ([1; 2; 3; 4], h) /\
    combined_frame_image (c 64) inflate (default_hasher (c 64)) s 0 [0; 0; 0; 0] = Ok ([1; 2; 3; 4], h') /\ h <> h'.
Proof. exact other_width_other_hash. Qed.
Print Assumptions C98_platform_refuted.

(** Frame 1 links to the cel of frame 0, frame 2 has it one pixel to the left. *)
Definition three_frames : bytes :=
  hdr 3 32 1 1 ++ frm [layer_ch 1 0 0 255 [97]; raw_cel_ch 0 0 0 255 1 1 [1; 2; 3; 4]] ++
  frm [linked_cel_ch 0 0 0 0] ++ frm [linked_cel_ch 0 (-1) 0 0].
Example C98_example : exists s sf, load rel32 three_frames = Ok s /\ nth_error (api_frames s) 2 = Some sf /\
  frame_record rel32 sf = [0; 0; 0; 0; 0; 0; 0; 0; 255; 255; 0; 0; 1; 0; 1; 0] /\
  map (fun k => combined_frame_image rel32 (fun _ _ => (ZError, [])) (default_hasher rel32) s k [0; 0; 0; 0]) [0; 1; 2] =
    [Ok ([1; 2; 3; 4], 0xc67e68b2a18a0920); Ok ([1; 2; 3; 4], 0xc67e68b2a18a0920); Ok ([0; 0; 0; 0], 0xb6b6aa8c1bacd252)].
Proof.
  do 2 eexists. split; [vm_compute; reflexivity|]. split; [vm_compute; reflexivity|]. split; vm_compute; reflexivity.
Qed.
