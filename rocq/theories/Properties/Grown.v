(** A frame with new layers and new pictures, written after a file (C127). *)
From Verif.Model Require Import Loader.
From Verif.Spec Require Import Bytes Format LoaderSpec Held Grown.
From Verif.Proofs Require Import GrownProps.
From Verif.Tests Require Import Configs Build.

(** ** C127 *)
(** [hold] is the frame of these chunks; the header of the file stays as it is. *)
Theorem C127_grown : forall c i s d ls xs, cfg_ok c -> is_bytes i -> load c i = Ok s -> u16 d ->
  Forall new_layer_ok ls -> Forall new_cel_ok xs -> ascending (zlen (f_layers (af_file s)) + zlen ls) xs ->
  u32 (zlen (hold d (additions ls xs))) -> addressable c (i ++ hold d (additions ls xs)) ->
  exists s', load c (i ++ hold d (additions ls xs)) = Ok s' /\ grown s s' d ls xs.
Proof. exact grown_load. Qed.
Print Assumptions C127_grown.

(** The images and frames that were there before are as they were, if there are no
    new layers or the file has no layers other than normal ones and groups. *)
Theorem C127_others : forall c i s s' d ls xs, cfg_ok c -> is_bytes i -> addressable c i -> load c i = Ok s -> grown s s' d ls xs ->
  ls = [] \/ zlen (af_layers s) = zlen (f_layers (af_file s)) ->
  forall inflate,
    (forall j target, 0 <= j < zlen (af_images s) -> load_image c inflate s' j target = load_image c inflate s j target) /\
    forall k, 0 <= k < zlen (af_frames s) ->
      (forall target sel, render_frame c inflate s' k target sel = render_frame c inflate s k target sel) /\
      (forall hasher target, combined_frame_image c inflate hasher s' k target = combined_frame_image c inflate hasher s k target).
Proof. exact grown_others. Qed.
Print Assumptions C127_others.

Definition no_inflate : inflater := fun _ _ => (ZError, []).
(** One layer with a picture; then a second layer and a frame with pictures on both. *)
Definition small : bytes := hdr 1 32 1 1 ++ frm [layer_ch 1 0 0 255 [97]; raw_cel_ch 0 0 0 255 1 1 [1; 2; 3; 255]].
Definition top : new_layer := {| nl_flags := 1; nl_mode := 0; nl_opacity := 255; nl_name := [98] |}.
Definition dot (layer : Z) (d : bytes) : new_cel :=
  {| nc_layer := layer; nc_x := 0; nc_y := 0; nc_image := {| im_width := 1; im_height := 1; im_data := d; im_compressed := false |} |}.
Example C127_example : exists s s', load dbg64 small = Ok s /\
  Forall new_layer_ok [top] /\ Forall new_cel_ok [dot 0 [4; 5; 6; 255]; dot 1 [7; 8; 6; 255]] /\
  ascending (zlen (f_layers (af_file s)) + 1) [dot 0 [4; 5; 6; 255]; dot 1 [7; 8; 6; 255]] /\
  load dbg64 (small ++ hold 50 (additions [top] [dot 0 [4; 5; 6; 255]; dot 1 [7; 8; 6; 255]])) = Ok s' /\
  map ly_name (af_layers s') = [[97]; [98]] /\ map sf_duration (af_frames s') = [100; 50] /\ zlen (af_images s') = 3 /\
  render_frame dbg64 no_inflate s' 0 [0; 0; 0; 0] SelVisible = Ok [1; 2; 3; 255] /\
  render_frame dbg64 no_inflate s' 1 [0; 0; 0; 0] SelVisible = Ok [7; 8; 6; 255].
Proof.
  eexists. eexists. split; [vm_compute; reflexivity|]. split.
  { constructor; [|constructor]. unfold new_layer_ok, u16, u8, uint. cbn [top nl_flags nl_mode nl_opacity nl_name].
    do 3 (split; [lia|]). split; [vm_compute; split; congruence|]. split.
    - exists [98]. split; [|reflexivity]. constructor; [unfold Utf8Spec.scalar; lia|constructor].
    - constructor; [unfold is_byte; lia|constructor]. }
  assert (B : forall a b, is_byte a -> is_byte b -> forall l, 0 <= l < 2 -> new_cel_ok (dot l [a; b; 6; 255])).
  { intros a b H1 H2 l Hl. unfold new_cel_ok, u16, i16, uint, sint. cbn [dot nc_layer nc_x nc_y nc_image im_width im_height im_data].
    do 5 (split; [lia|]). constructor; [exact H1|]. constructor; [exact H2|]. constructor; [unfold is_byte; lia|]. constructor; [unfold is_byte; lia|]. constructor. }
  split. { constructor; [|constructor; [|constructor]]; apply B; unfold is_byte; lia. }
  split. { split; [|constructor; [|constructor; [|constructor]]; reflexivity].
    constructor; [constructor; constructor|]. constructor; [reflexivity|constructor]. }
  do 5 (split; [vm_compute; reflexivity|]). vm_compute; reflexivity.
Qed.

(** Here a tilemap layer comes first, so that the numbers of layers are off by one
    (C29): the picture, not drawn before, is drawn by the settings of the new layer. *)
Definition tilemap_first : bytes :=
  hdr 1 32 1 1 ++ frm [layer_ch 1 2 0 255 [97]; layer_ch 1 0 0 255 [98]; raw_cel_ch 1 0 0 255 1 1 [1; 2; 3; 255]].
Example C127_tilemap : exists s s', load dbg64 tilemap_first = Ok s /\
  load dbg64 (tilemap_first ++ hold 50 (additions [top] [])) = Ok s' /\
  render_frame dbg64 no_inflate s 0 [0; 0; 0; 0] SelVisible = Ok [0; 0; 0; 0] /\
  render_frame dbg64 no_inflate s' 0 [0; 0; 0; 0] SelVisible = Ok [1; 2; 3; 255].
Proof. eexists. eexists. do 3 (split; [vm_compute; reflexivity|]). vm_compute; reflexivity. Qed.
