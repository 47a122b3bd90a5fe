(** A part of the canvas (C135). *)
From Verif.Model Require Import Loader.
From Verif.Spec Require Import Bytes Format Encode FileSpec LoaderSpec ImageSpec RenderSpec Made Cropped.
From Verif.Proofs Require Import CropProps.
From Verif.Tests Require Import Configs Build.

(** ** C135 *)
(** Another canvas: the header gets its size and the cels their new positions.
    The file keeps its length and all that is not a position. *)
Theorem C135_file : forall dx dy w h c i raw s, cfg_ok c -> is_bytes i -> addressable c i -> parse_raw_file c i = Ok raw ->
  no_map_error raw -> load c i = Ok s -> can_crop dx dy w h raw ->
  zlen (enc_file (cropped_file dx dy w h raw)) = zlen (enc_file raw) /\
  (addressable c (enc_file raw) -> exists s', load c (enc_file (cropped_file dx dy w h raw)) = Ok s' /\ cropped dx dy w h s s').
Proof. exact crop_loads. Qed.
Print Assumptions C135_file.

(** If the new canvas is a part of the old one, so are the pictures. *)
Theorem C135_frames : forall c inflate s s' sel dx dy w h, cfg_ok c -> inflate_ok inflate -> typed c s -> typed c s' -> made_fits c s ->
  cropped dx dy w h s s' -> inside dx dy w h s ->
  forall k target target' r, is_bytes target -> is_bytes target' -> canvas_size s' <= zlen target' ->
  part_of dx dy w h (canvas_width s) target target' ->
  render_frame c inflate s (Z.of_nat k) target sel = Ok r ->
  exists r', render_frame c inflate s' (Z.of_nat k) target' sel = Ok r' /\ part_of dx dy w h (canvas_width s) r r'.
Proof. exact crops. Qed.
Print Assumptions C135_frames.

(** Both together. *)
Theorem C135_cropped : forall c i raw s dx dy w h, cfg_ok c -> is_bytes i -> addressable c i -> parse_raw_file c i = Ok raw ->
  no_map_error raw -> load c i = Ok s -> can_crop dx dy w h raw -> addressable c (enc_file raw) -> sprite_fits c s ->
  inside dx dy w h s ->
  exists s', load c (enc_file (cropped_file dx dy w h raw)) = Ok s' /\ cropped dx dy w h s s' /\
    forall inflate sel k target target' r, inflate_ok inflate -> is_bytes target -> is_bytes target' -> canvas_size s' <= zlen target' ->
      part_of dx dy w h (canvas_width s) target target' -> render_frame c inflate s (Z.of_nat k) target sel = Ok r ->
      exists r', render_frame c inflate s' (Z.of_nat k) target' sel = Ok r' /\ part_of dx dy w h (canvas_width s) r r'.
Proof. exact crop_all. Qed.
Print Assumptions C135_cropped.

(** Three by two pixels; the new canvas has the last two of the second line. *)
Definition big : bytes :=
  hdr 1 32 3 2 ++ frm [layer_ch 1 0 0 255 [97]; layer_ch 1 0 1 255 [98];
    raw_cel_ch 0 1 0 255 2 2 [1; 2; 3; 255; 4; 5; 6; 255; 70; 80; 90; 255; 10; 11; 12; 255];
    raw_cel_ch 1 0 1 255 2 1 [9; 9; 9; 9; 100; 150; 200; 255]].
Definition small : bytes :=
  hdr 1 32 2 1 ++ frm [layer_ch 1 0 0 255 [97]; layer_ch 1 0 1 255 [98];
    raw_cel_ch 0 0 (-1) 255 2 2 [1; 2; 3; 255; 4; 5; 6; 255; 70; 80; 90; 255; 10; 11; 12; 255];
    raw_cel_ch 1 (-1) 0 255 2 1 [9; 9; 9; 9; 100; 150; 200; 255]].
Definition no_inflate : inflater := fun _ _ => (ZError, []).
Example C135_example : exists raw s s', parse_raw_file dbg64 big = Ok raw /\ no_map_error raw /\ load dbg64 big = Ok s /\
  can_crop 1 1 2 1 raw /\ inside 1 1 2 1 s /\ parse_raw_file dbg64 small = Ok (cropped_file 1 1 2 1 raw) /\
  load dbg64 (enc_file (cropped_file 1 1 2 1 raw)) = Ok s' /\ cropped 1 1 2 1 s s' /\
  render_frame dbg64 no_inflate s 0 (repeat 0 24) SelAll =
    Ok [0; 0; 0; 0; 1; 2; 3; 255; 4; 5; 6; 255; 9; 9; 9; 9; 27; 47; 71; 255; 10; 11; 12; 255] /\
  render_frame dbg64 no_inflate s' 0 (repeat 0 8) SelAll = Ok [27; 47; 71; 255; 10; 11; 12; 255].
Proof.
  destruct (parse_raw_file dbg64 big) as [raw| |] eqn:R; [|vm_compute in R; discriminate..]. vm_compute in R. injection R as <-.
  do 3 eexists. split; [reflexivity|].
  split; [intros fr u e H; cbn in H; repeat destruct H as [<-|H]; try destruct H; cbn; intuition discriminate|].
  split; [vm_compute; reflexivity|]. split.
  { split; [split; reflexivity || discriminate|]. split; [split; reflexivity || discriminate|]. intros fr x Hf Hx. cbn in Hf. destruct Hf as [<-|[]].
    cbn in Hx. repeat (destruct Hx as [Hx|Hx]; [try discriminate Hx; injection Hx as <-; repeat split; reflexivity || discriminate|]). destruct Hx. }
  split; [repeat split; discriminate|]. split; [vm_compute; reflexivity|]. split; [vm_compute; reflexivity|].
  split; [repeat split|]. split; vm_compute; reflexivity.
Qed.
(** A position that does not fit comes back at the other end. *)
Definition far : bytes :=
  hdr 1 32 2 1 ++ frm [layer_ch 1 0 0 255 [97]; raw_cel_ch 0 (-32768) 0 255 1 1 [1; 2; 3; 4]].
Example C135_needed : exists raw s, parse_raw_file dbg64 far = Ok raw /\ ~ can_crop 1 0 1 1 raw /\
  load dbg64 (enc_file (cropped_file 1 0 1 1 raw)) = Ok s /\
  map (fun sf => map fc_origin (sf_cels sf)) (api_frames s) = [[(32767, 0)]].
Proof.
  destruct (parse_raw_file dbg64 far) as [raw| |] eqn:R; [|vm_compute in R; discriminate..]. vm_compute in R. injection R as <-.
  do 2 eexists. split; [reflexivity|]. split.
  { intros (_ & _ & H). specialize (H _ _ (or_introl eq_refl) (or_intror (or_introl eq_refl))). destruct H as [[H _] _]. vm_compute in H. now apply H. }
  split; vm_compute; reflexivity.
Qed.
