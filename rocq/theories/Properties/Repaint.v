(** Indexed sprites with other palettes (C119). *)
From Verif.Model Require Import Loader.
From Verif.Spec Require Import Bytes ImageSpec RenderSpec Made Convert Repaint.
From Verif.Proofs Require Import RepaintProps.
From Verif.Tests Require Import Configs Build.

(** ** C119 *)
(** The pictures of two indexed sprites are the same exactly if their pixels
    stand for the same colours, wherever these are in the palettes and whatever
    else is there ... *)
Theorem C119_pictures : forall c inflate, cfg_ok c -> forall s s' pal pal', typed c s -> typed c s' ->
  Forall (fun im => rgba_size im < 2 ^ usize_bits c) (af_images s) ->
  indexed_with s pal -> indexed_with s' pal' -> Forall2 same_size (af_images s) (af_images s') ->
  ((forall j target, load_image c inflate s j target = load_image c inflate s' j target) <->
   Forall2 (same_colours pal pal') (af_images s) (af_images s')).
Proof. exact repainted_exactly. Qed.
Print Assumptions C119_pictures.

(** ... and then the frames are, with their hashes. *)
Theorem C119_frames : forall c inflate s s' pal pal', cfg_ok c -> typed c s -> typed c s' ->
  Forall (fun im => rgba_size im < 2 ^ usize_bits c) (af_images s) ->
  indexed_with s pal -> indexed_with s' pal' ->
  Forall2 same_size (af_images s) (af_images s') -> Forall2 (same_colours pal pal') (af_images s) (af_images s') ->
  canvas s' = canvas s -> af_layers s' = af_layers s -> af_frames s' = af_frames s ->
  (forall k target sel, render_frame c inflate s k target sel = render_frame c inflate s' k target sel) /\
  (forall hasher k target,
     combined_frame_image c inflate hasher s k target = combined_frame_image c inflate hasher s' k target).
Proof. exact repainted_frames. Qed.
Print Assumptions C119_frames.

(** Four pixels; the palette in another order, with a colour that is not used. *)
Definition four (colours : list (Z * Z * Z * Z)) (px : bytes) : bytes :=
  hdr 1 8 4 1 ++ frm [palette_ch (zlen colours) 0 (zlen colours - 1) colours; layer_ch 1 0 0 200 [97]; raw_cel_ch 0 0 0 255 4 1 px].
Definition in_order : bytes := four [(1, 1, 1, 255); (200, 0, 0, 255); (0, 200, 0, 128)] [0; 1; 2; 1].
Definition reordered : bytes := four [(1, 1, 1, 255); (7, 7, 7, 7); (0, 200, 0, 128); (200, 0, 0, 255)] [0; 3; 2; 3].
Definition no_inflate : inflater := fun _ _ => (ZError, []).
Definition four_drawn (i : bytes) : option buf_out :=
  match load rel32 i with Ok s => Some (render_frame rel32 no_inflate s 0 (repeat 100 16) SelVisible) | _ => None end.
Example C119_example :
  (exists s s' pal pal', load rel32 in_order = Ok s /\ load rel32 reordered = Ok s' /\
     indexed_with s pal /\ indexed_with s' pal' /\ Forall2 same_size (af_images s) (af_images s') /\
     Forall2 (same_colours pal pal') (af_images s) (af_images s') /\
     canvas s' = canvas s /\ af_layers s' = af_layers s /\ af_frames s' = af_frames s) /\
  four_drawn in_order = four_drawn reordered /\
  four_drawn in_order = Some (Ok [100; 100; 100; 100; 190; 10; 10; 222; 38; 162; 38; 161; 190; 10; 10; 222]).
Proof.
  split; [|split; vm_compute; reflexivity].
  do 4 eexists. split; [vm_compute; reflexivity|]. split; [vm_compute; reflexivity|].
  do 2 (split; [do 2 (split; [reflexivity|]); constructor; [split; reflexivity|constructor]|]).
  split; [constructor; [split; reflexivity|constructor]|].
  split; [|now repeat split]. apply Forall2_cons; [|apply Forall2_nil]. unfold same_colours. cbn [im_data].
  do 4 (apply Forall2_cons; [eexists; split; reflexivity|]). apply Forall2_nil.
Qed.

(** It is the palette of the sprite that counts, not that in the file: the first
    colour is transparent wherever it is used (C69), so it cannot be exchanged
    with another one. *)
Definition exchanged : bytes := four [(200, 0, 0, 255); (1, 1, 1, 255); (0, 200, 0, 128)] [1; 0; 2; 0].
Example C119_transparent : four_drawn exchanged =
  Some (Ok [11; 11; 11; 222; 100; 100; 100; 100; 38; 162; 38; 161; 100; 100; 100; 100]).
Proof. vm_compute. reflexivity. Qed.
