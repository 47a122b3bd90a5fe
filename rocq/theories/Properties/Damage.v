(** Where a changed picture shows (C138). *)
From Verif.Model Require Import Loader.
From Verif.Spec Require Import Bytes LoaderSpec ImageSpec BlendSpec RenderSpec Patch Damage.
From Verif.Proofs Require Import DamageProps.
From Verif.Tests Require Import Configs Build.

(** ** C138 *)
(** The stored pixels of an uncompressed image can be changed in the file.  The
    file still loads with the same frames and layers, what could be drawn can
    still be drawn, and the pictures differ only where a cel shows one of the
    changed pixels: no other pixel of any frame changes, for all blend modes and
    opacities, whatever lies above or below. *)
Theorem C138_damage : forall c i s j im, cfg_ok c -> is_bytes i -> addressable c i -> load c i = Ok s -> sprite_fits c s ->
  nth_error (af_images s) j = Some im -> im_compressed im = false ->
  exists a b, i = a ++ im_data im ++ b /\
    forall (P : Z -> Prop) d, is_bytes d -> differs_only (depth_bytes (h_color_depth (f_header (af_file s)))) P (im_data im) d ->
    exists s', load c (a ++ d ++ b) = Ok s' /\ same_outline s s' /\ af_frames s' = af_frames s /\
      forall inflate sel k sf t, inflate_ok inflate -> nth_error (api_frames s) k = Some sf -> is_bytes t ->
      ((exists r, render_frame c inflate s (Z.of_nat k) t sel = Ok r) ->
       (debug c = true -> forall cel l, In cel (sf_cels sf) -> drawn s sel cel = Some l -> separable (ly_blend_mode l)) ->
       exists r', render_frame c inflate s' (Z.of_nat k) t sel = Ok r') /\
      (forall r r' x y, render_frame c inflate s (Z.of_nat k) t sel = Ok r -> render_frame c inflate s' (Z.of_nat k) t sel = Ok r' ->
         0 <= x < canvas_width s -> 0 <= y < canvas_height s -> ~ touched s sel sf j P x y ->
         pixel (canvas_width s) r' x y = pixel (canvas_width s) r x y).
Proof. exact damage. Qed.
Print Assumptions C138_damage.

(** Two frames of 2 x 1 grey pixels; the second shows the picture of the first below
    a multiplying layer.  The second pixel is changed. *)
Definition gray_file (px : bytes) : bytes :=
  hdr 2 16 2 1 ++
  frm [layer_ch 1 0 0 255 [97]; layer_ch 1 0 1 255 [98]; raw_cel_ch 0 0 0 255 2 1 px] ++
  frm [linked_cel_ch 0 0 0 0; raw_cel_ch 1 0 0 255 1 1 [128; 255]].
Definition no_inflate : inflater := fun _ _ => (ZError, []).
Example C138_example : exists s s', load dbg64 (gray_file [100; 255; 60; 255]) = Ok s /\ load dbg64 (gray_file [100; 255; 200; 7]) = Ok s' /\
  map im_compressed (af_images s) = [false; false] /\ differs_only 2 (fun q => q = 1) [100; 255; 60; 255] [100; 255; 200; 7] /\
  map (fun k => render_frame dbg64 no_inflate s k (repeat 0 8) SelAll) [0; 1] =
    [Ok [100; 100; 100; 255; 60; 60; 60; 255]; Ok [50; 50; 50; 255; 60; 60; 60; 255]] /\
  map (fun k => render_frame dbg64 no_inflate s' k (repeat 0 8) SelAll) [0; 1] =
    [Ok [100; 100; 100; 255; 200; 200; 200; 7]; Ok [50; 50; 50; 255; 200; 200; 200; 7]] /\
  (forall sf, nth_error (api_frames s) 1 = Some sf -> touched s SelAll sf 0 (fun q => q = 1) 1 0 /\ ~ touched s SelAll sf 0 (fun q => q = 1) 0 0).
Proof.
  eexists. eexists. split; [vm_compute; reflexivity|]. split; [vm_compute; reflexivity|]. split; [reflexivity|].
  split. { split; [reflexivity|]. intros q Hq HN. assert (q < 2 \/ 2 <= q < 4 \/ 4 <= q) as [H|[H|H]] by lia.
    - assert (q = 0 \/ q = 1) as [->| ->] by lia; reflexivity.
    - exfalso. apply HN. symmetry. apply Z.div_unique with (q - 2); lia.
    - transitivity (@None Z); [|symmetry]; apply nth_error_None; cbn [length]; lia. }
  split; [vm_compute; reflexivity|]. split; [vm_compute; reflexivity|].
  intros sf H. cbn in H. injection H as <-. split.
  - eexists. eexists. split; [left; reflexivity|]. repeat split; reflexivity.
  - intros (cel & l & Hin & _ & Hj & _ & HP). cbn in Hin. repeat destruct Hin as [<-|Hin]; try destruct Hin; cbn in Hj, HP; lia.
Qed.

(** In a compressed image a changed byte can show everywhere. *)
Definition spread : inflater := fun d n => (ZStreamEnd, repeat (nth 0 d 0) (Z.to_nat n)).
Example C138_needed : exists s s',
  load dbg64 (hdr 1 32 2 1 ++ frm [layer_ch 1 0 0 255 [97]; zip_cel_ch 0 0 0 255 2 1 [7]]) = Ok s /\
  load dbg64 (hdr 1 32 2 1 ++ frm [layer_ch 1 0 0 255 [97]; zip_cel_ch 0 0 0 255 2 1 [9]]) = Ok s' /\
  map im_data (af_images s) = [[7]] /\ map im_data (af_images s') = [[9]] /\
  render_frame dbg64 spread s 0 (repeat 0 8) SelAll = Ok (repeat 7 8) /\
  render_frame dbg64 spread s' 0 (repeat 0 8) SelAll = Ok (repeat 9 8).
Proof. eexists. eexists. split; [vm_compute; reflexivity|]. split; [vm_compute; reflexivity|]. repeat split; vm_compute; reflexivity. Qed.
