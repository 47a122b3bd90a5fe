(** Changing a file in place (C124). *)
From Verif.Model Require Import Loader.
From Verif.Spec Require Import Bytes Format ImageSpec RenderSpec Patch.
From Verif.Proofs Require Import PatchProps PatchMore.
From Verif.Tests Require Import Configs Build.

(** ** C124 *)
(** The data of every image of a loaded sprite are bytes of the file in one piece.
    Whatever of the same length is written over them, the file can still be loaded;
    the sprite has the new data in this image and is the same otherwise. *)
Theorem C124_data : forall c i s j im, cfg_ok c -> is_bytes i -> addressable c i -> load c i = Ok s ->
  nth_error (af_images s) j = Some im ->
  exists a b, i = a ++ im_data im ++ b /\
    forall d, is_bytes d -> zlen d = zlen (im_data im) ->
    exists s', load c (a ++ d ++ b) = Ok s' /\ same_outline s s' /\ af_frames s' = af_frames s /\
      af_images s' = set_at j (with_data im d) (af_images s).
Proof. exact data_changed. Qed.
Print Assumptions C124_data.

(** The same of the position of a cel, be it an image or a link. *)
Theorem C124_place : forall c i s k sf m fc, cfg_ok c -> is_bytes i -> addressable c i -> load c i = Ok s ->
  nth_error (af_frames s) k = Some sf -> nth_error (sf_cels sf) m = Some fc ->
  exists a b, i = a ++ (les 2 (fst (fc_origin fc)) ++ les 2 (snd (fc_origin fc))) ++ b /\
    forall p q, i16 p -> i16 q ->
    exists s', load c (a ++ (les 2 p ++ les 2 q) ++ b) = Ok s' /\ same_outline s s' /\ af_images s' = af_images s /\
      af_frames s' = set_at k (with_cels sf (set_at m (at_origin (p, q) fc) (sf_cels sf))) (af_frames s).
Proof. exact place_changed. Qed.
Print Assumptions C124_place.

(** The same of visibility, blend mode and opacity of a layer; the bytes [m] between
    them keep the type and the nesting. *)
Theorem C124_layer : forall c i s j l, cfg_ok c -> is_bytes i -> addressable c i -> load c i = Ok s ->
  nth_error (af_layers s) j = Some l ->
  exists a flags m bm b, i = a ++ (le 2 flags ++ m ++ le 2 bm ++ le 1 (ly_opacity l)) ++ b /\ zlen m = 8 /\
    u16 flags /\ u16 bm /\ ly_visible l = Z.testbit flags 0 /\ ly_blend_mode l = blend_mode_code bm /\
    forall flags' bm' op', u16 flags' -> u16 bm' -> u8 op' ->
    exists s', load c (a ++ (le 2 flags' ++ m ++ le 2 bm' ++ le 1 op') ++ b) = Ok s' /\ same_but_layers s s' /\
      af_layers s' = set_at j (with_look l flags' bm' op') (af_layers s).
Proof. exact layer_changed. Qed.
Print Assumptions C124_layer.

(** The same of the duration of a frame. *)
Theorem C124_duration : forall c i s k sf, cfg_ok c -> is_bytes i -> addressable c i -> load c i = Ok s ->
  nth_error (af_frames s) k = Some sf ->
  exists a b, i = a ++ le 2 (sf_duration sf) ++ b /\
    forall d, u16 d ->
    exists s', load c (a ++ le 2 d ++ b) = Ok s' /\ same_outline s s' /\ af_images s' = af_images s /\
      af_frames s' = set_at k (with_duration sf d) (af_frames s).
Proof. exact duration_changed. Qed.
Print Assumptions C124_duration.

(** A cel that is replaced by a later one in the same frame, and a link. *)
Definition linked (d : bytes) (x : Z) : bytes :=
  hdr 2 32 2 1 ++ frm [layer_ch 1 0 0 255 [97]; raw_cel_ch 0 0 0 255 1 1 [1; 2; 3; 4]; raw_cel_ch 0 0 0 255 1 1 d] ++
  frm [linked_cel_ch 0 x 0 0].
Definition no_inflate : inflater := fun _ _ => (ZError, []).
Example C124_example : exists s s' s'', load dbg64 (linked [1; 2; 3; 4] 1) = Ok s /\
  load dbg64 (linked [7; 8; 9; 255] 1) = Ok s' /\ load dbg64 (linked [1; 2; 3; 4] (-5)) = Ok s'' /\
  map im_data (af_images s) = [[1; 2; 3; 4]] /\ map im_data (af_images s') = [[7; 8; 9; 255]] /\
  af_frames s' = af_frames s /\ map (fun f => map fc_origin (sf_cels f)) (af_frames s) = [[(0, 0)]; [(1, 0)]] /\
  map (fun f => map fc_origin (sf_cels f)) (af_frames s'') = [[(0, 0)]; [(-5, 0)]] /\
  render_frame dbg64 no_inflate s 1 (repeat 0 8) SelAll = Ok [0; 0; 0; 0; 1; 2; 3; 4] /\
  render_frame dbg64 no_inflate s' 1 (repeat 0 8) SelAll = Ok [0; 0; 0; 0; 7; 8; 9; 255] /\
  render_frame dbg64 no_inflate s'' 1 (repeat 0 8) SelAll = Ok [0; 0; 0; 0; 0; 0; 0; 0].
Proof.
  do 3 eexists. split; [vm_compute; reflexivity|]. split; [vm_compute; reflexivity|]. split; [vm_compute; reflexivity|].
  repeat split; vm_compute; reflexivity.
Qed.

(** A layer after a tilemap layer, which the sprite has not. *)
Definition layered (flags bm op : Z) : bytes :=
  hdr 1 32 1 1 ++ frm [encode_chunk 0x2004 (le 2 1 ++ le 2 2 ++ repeat 0 6 ++ le 2 0 ++ le 1 255 ++ repeat 0 3 ++ le 2 0 ++ le 4 0);
    layer_ch flags 0 bm op [97]].
Example C124_layer_example : exists s s', load rel32 (layered 1 0 255) = Ok s /\ load rel32 (layered 0xFF80 4 9) = Ok s' /\
  map (fun l => (ly_visible l, ly_blend_mode l, ly_opacity l)) (af_layers s) = [(true, BNormal, 255)] /\
  map (fun l => (ly_visible l, ly_blend_mode l, ly_opacity l)) (af_layers s') = [(false, BDarken, 9)].
Proof. do 2 eexists. split; [vm_compute; reflexivity|]. split; [vm_compute; reflexivity|]. split; vm_compute; reflexivity. Qed.
