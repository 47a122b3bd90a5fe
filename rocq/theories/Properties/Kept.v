(** What a frame is drawn from (C120). *)
From Verif.Model Require Import Loader.
From Verif.Spec Require Import Bytes RenderSpec Kept.
From Verif.Proofs Require Import KeptProps.
From Verif.Tests Require Import Configs Build.

(** ** C120 *)
(** Of the cels, layers and images, a frame depends on the images, places, sizes,
    blend modes and opacities of the drawn cels and their order only, and on the
    palette only if it is indexed: for all values of the public types, and failures included. *)
Theorem C120_depends : forall c inflate s s' sel sel' k k' sf sf' target,
  nth_error (api_frames s) k = Some sf -> nth_error (api_frames s') k' = Some sf' ->
  same_canvas s s' -> (h_color_depth (f_header (af_file s)) = Indexed -> f_palette (af_file s) = f_palette (af_file s')) ->
  drawings s sel (sf_cels sf) = drawings s' sel' (sf_cels sf') ->
  render_frame c inflate s (Z.of_nat k) target sel = render_frame c inflate s' (Z.of_nat k') target sel'.
Proof. exact drawn_alike_frames. Qed.
Print Assumptions C120_depends.

(** So a selection can be made permanent: without the layers that are not
    selected, the groups and their cels, all frames are what they were with the
    selection. *)
Theorem C120_kept : forall c inflate sel' s sel k target, sel' = SelVisible \/ sel' = SelAll ->
  render_frame c inflate (kept sel s) k target sel' = render_frame c inflate s k target sel.
Proof. exact kept_frames. Qed.
Print Assumptions C120_kept.

(** Layers a, b (not visible), a group, c; of these a and c are kept, with the
    numbers 0 and 1. *)
Definition four_layers : bytes :=
  hdr 1 32 2 1 ++ frm [layer_ch 1 0 0 255 [97]; layer_ch 0 0 0 255 [98]; layer_ch 1 1 0 255 [103]; layer_ch 1 0 1 128 [99];
    raw_cel_ch 0 0 0 255 2 1 [10; 20; 30; 255; 40; 50; 60; 255]; raw_cel_ch 1 0 0 255 1 1 [1; 2; 3; 4];
    raw_cel_ch 3 1 0 255 1 1 [200; 100; 0; 255]].
Definition no_inflate : inflater := fun _ _ => (ZError, []).
Definition places (s : ase_file) : list (Z * Z) :=
  flat_map (fun f => map (fun cel => (fc_layer_index cel, fc_image_index cel)) (sf_cels f)) (af_frames s).
Example C120_example : exists s, load dbg32 four_layers = Ok s /\
  map ly_name (af_layers s) = [[97]; [98]; [103]; [99]] /\ places s = [(0, 0); (1, 1); (3, 2)] /\
  map ly_name (af_layers (kept SelVisible s)) = [[97]; [99]] /\ places (kept SelVisible s) = [(0, 0); (1, 2)] /\
  render_frame dbg32 no_inflate (kept SelVisible s) 0 (repeat 0 8) SelAll = Ok [10; 20; 30; 255; 36; 35; 30; 255] /\
  map ly_name (af_layers (kept (SelMask [false; true; true; true]) s)) = [[98]; [99]] /\
  places (kept (SelMask [false; true; true; true]) s) = [(0, 1); (1, 2)].
Proof. eexists. split; [vm_compute; reflexivity|]. repeat split; vm_compute; reflexivity. Qed.

(** The image that is then not used can be deleted as well. *)
Definition without_image (s : ase_file) : ase_file :=
  {| af_file := af_file s; af_layers := af_layers s;
     af_frames := map (fun f => {| sf_duration := sf_duration f; sf_origin := sf_origin f;
       sf_cels := map (fun cel => {| fc_origin := fc_origin cel; fc_size := fc_size cel; fc_layer_index := fc_layer_index cel;
         fc_image_index := if fc_image_index cel =? 2 then 1 else fc_image_index cel |}) (sf_cels f) |}) (af_frames s);
     af_tags := []; af_images := firstn 1 (af_images s) ++ skipn 2 (af_images s) |}.
Example C120_images : exists s sf sf', load dbg32 four_layers = Ok s /\
  nth_error (api_frames s) 0 = Some sf /\ nth_error (api_frames (without_image (kept SelVisible s))) 0 = Some sf' /\
  length (af_images (without_image (kept SelVisible s))) = 2%nat /\
  drawings s SelVisible (sf_cels sf) = drawings (without_image (kept SelVisible s)) SelVisible (sf_cels sf').
Proof. do 3 eexists. split; [vm_compute; reflexivity|]. repeat split; vm_compute; reflexivity. Qed.
