(** Compressed pictures whatever program compressed them (C108), with the zlib
    format as a relation between bytes (Spec/Deflate.v). *)
From Verif.Model Require Import Loader Inflate.
From Verif.Spec Require Import Bytes LoaderSpec ImageSpec RenderSpec Zlib Deflate Made.
From Verif.Proofs Require Import BinaryFinal DeflateFacts UnpackProps.
From Verif.Tests Require Import Configs Build.

(** ** C108 *)
(** The pictures of a sprite are those of the sprite whose compressed images are
    replaced by the pixels that their streams stand for ... *)
Theorem C108_images : forall c inflate s s' j target, cfg_ok c -> reads_streams inflate ->
  typed c s -> Forall (fun im => rgba_size im < 2 ^ usize_bits c) (af_images s) -> unpacked s s' ->
  load_image c inflate s j target = load_image c inflate s' j target.
Proof. exact unpacked_pictures. Qed.
Print Assumptions C108_images.

(** ... and so are the frames, with their hashes. *)
Theorem C108_frames : forall c inflate s s', cfg_ok c -> reads_streams inflate ->
  typed c s -> Forall (fun im => rgba_size im < 2 ^ usize_bits c) (af_images s) -> unpacked s s' ->
  (forall k target sel, render_frame c inflate s k target sel = render_frame c inflate s' k target sel) /\
  (forall hasher k target,
     combined_frame_image c inflate hasher s k target = combined_frame_image c inflate hasher s' k target).
Proof. exact unpacked_frames. Qed.
Print Assumptions C108_frames.

(** Damage is reported exactly if the data do not begin with a stream of at most
    as many bytes as the picture has. *)
Theorem C108_damaged : forall c inflate, cfg_ok c -> reads_zlib inflate ->
  forall s j im target, typed c s -> nth_error (af_images s) j = Some im ->
  rgba_size im < 2 ^ usize_bits c -> rgba_size im <= zlen target -> im_compressed im = true ->
  (forall k, h_color_depth (f_header (af_file s)) <> DUnknown k) ->
  ((exists t, load_image c inflate s (Z.of_nat j) target = Err (DecompressError, t)) <->
   ~ exists stream rest w, im_data im = stream ++ rest /\ zlib_stream stream w /\
       zlen w <= pixel_bytes (h_color_depth (f_header (af_file s))) im).
Proof. exact load_damaged. Qed.
Print Assumptions C108_damaged.

(** Data stand for at most one sequence of pixels, whatever follows the stream. *)
Theorem C108_unique : forall s r w s' r' w', s ++ r = s' ++ r' -> zlib_stream s w -> zlib_stream s' w' -> w = w'.
Proof. exact unique_stream. Qed.
Print Assumptions C108_unique.

(** Both contracts can be met: by the decompressor of Model/Inflate.v. *)
Theorem C108_zlib : reads_zlib inflate_zlib /\ reads_streams inflate_zlib.
Proof. exact (conj inflate_reads_zlib (zlib_streams _ inflate_reads_zlib)). Qed.
Print Assumptions C108_zlib.

(** Six pixels of one colour compressed with the fixed codes and a
    repetition, ... *)
Definition stripe : bytes := [7; 8; 9; 255; 7; 8; 9; 255; 7; 8; 9; 255; 7; 8; 9; 255; 7; 8; 9; 255; 7; 8; 9; 255].
Definition fixed_stream : bytes := [120; 1; 99; 231; 224; 252; 207; 142; 5; 3; 0; 73; 26; 6; 139].
(** ... and 144 pixels of four colours with codes of their own. *)
Definition noise : bytes :=
  [1; 1; 0; 0; 2; 1; 0; 1; 0; 1; 0; 0; 1; 0; 1; 1; 0; 0; 0; 0; 3; 0; 1; 0; 0; 3; 0; 0; 0; 1; 0; 1; 0; 1; 0; 1;
   3; 3; 3; 1; 0; 0; 2; 0; 0; 0; 0; 1; 1; 3; 1; 3; 0; 3; 1; 2; 0; 1; 3; 1; 1; 2; 0; 1; 1; 0; 2; 0; 1; 1; 0; 1;
   1; 1; 1; 0; 0; 0; 0; 0; 2; 0; 3; 0; 0; 1; 3; 3; 0; 0; 1; 1; 0; 3; 1; 2; 0; 1; 0; 1; 0; 1; 0; 0; 0; 1; 0; 0;
   1; 3; 1; 1; 1; 0; 0; 2; 2; 2; 0; 3; 3; 0; 0; 3; 1; 0; 0; 1; 0; 1; 3; 1; 1; 3; 1; 0; 1; 0; 2; 0; 3; 1; 2; 0].
Definition own_stream : bytes :=
  [120; 218; 37; 141; 129; 9; 0; 0; 8; 194; 180; 253; 255; 115; 90; 8; 66; 53; 205; 150; 198; 170; 106; 113; 137; 14;
   232; 22; 21; 80; 170; 39; 27; 35; 60; 217; 186; 110; 157; 217; 31; 205; 148; 96; 18; 69; 159; 251; 238; 235; 231;
   168; 153; 64; 1; 248; 151; 180; 83; 237; 41; 190; 35; 69; 0; 134].

Example C108_streams : zlib_stream fixed_stream stripe /\ zlib_stream own_stream noise.
Proof.
  split.
  - apply (whole_stream _ _ 24); [apply bytes_by_compute; reflexivity|discriminate|vm_compute; reflexivity|vm_compute; discriminate].
  - apply (whole_stream _ _ 144); [apply bytes_by_compute; reflexivity|discriminate|vm_compute; reflexivity|vm_compute; discriminate].
Qed.

(** The first stream in a sprite, with two bytes behind it: *)
Definition one_cel (depth w h : Z) (more : list bytes) (data : bytes) : bytes :=
  hdr 1 depth w h ++ frm (more ++ [layer_ch 1 0 0 255 [97]; zip_cel_ch 0 0 0 255 w h data]).
Definition striped : bytes := one_cel 32 3 2 [] (fixed_stream ++ [1; 2]).
Definition with_images (s : ase_file) (ims : list image) : ase_file :=
  {| af_file := af_file s; af_layers := af_layers s; af_frames := af_frames s; af_tags := af_tags s; af_images := ims |}.
Example C108_example : exists s, load rel32 striped = Ok s /\
  unpacked s (with_images s [{| im_width := 3; im_height := 2; im_data := stripe; im_compressed := false |}]) /\
  load_image rel32 inflate_zlib s 0 (repeat 0 25) = Ok (stripe ++ [0]) /\
  render_frame rel32 inflate_zlib s 0 (repeat 0 24) SelVisible = Ok stripe.
Proof.
  eexists. split; [vm_compute; reflexivity|]. split; [|split; vm_compute; reflexivity].
  do 4 (split; [reflexivity|]). apply Forall2_cons; [|apply Forall2_nil].
  exact (unpacks_stream Rgba
    {| im_width := 3; im_height := 2; im_data := fixed_stream ++ [1; 2]; im_compressed := true |}
    fixed_stream [1; 2] stripe eq_refl eq_refl (proj1 C108_streams) eq_refl).
Qed.

(** The second in a sprite with a palette; with a changed bit; and in a picture
    that is one pixel too small. *)
Definition four_colours : bytes := palette_ch 4 0 3 [(9, 9, 9, 255); (200, 0, 0, 255); (0, 200, 0, 255); (0, 0, 200, 128)].
Definition colour_of (k : Z) : bytes :=
  match k with 0 => [9; 9; 9; 0] | 1 => [200; 0; 0; 255] | 2 => [0; 200; 0; 255] | _ => [0; 0; 200; 128] end.
Definition load_one (w h : Z) (data : bytes) : option buf_out :=
  match load dbg64 (one_cel 8 w h [four_colours] data) with
  | Ok s => Some (load_image dbg64 inflate_zlib s 0 (repeat 1 576))
  | _ => None
  end.
Definition changed : bytes := firstn 40 own_stream ++ [Z.lxor 31 4] ++ skipn 41 own_stream.
Example C108_damaged_example :
  load_one 12 12 own_stream = Some (Ok (flat_map colour_of noise)) /\
  (length changed = length own_stream /\ changed <> own_stream /\
   load_one 12 12 changed = Some (Err (DecompressError, repeat 1 576))) /\
  load_one 11 13 own_stream = Some (Err (DecompressError, repeat 1 576)).
Proof.
  split; [vm_compute; reflexivity|]. split; [|vm_compute; reflexivity].
  split; [reflexivity|]. split; [discriminate|vm_compute; reflexivity].
Qed.
