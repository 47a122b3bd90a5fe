(** Sprites converted to another colour depth (C109), mirrored and turned (C110). *)
From Verif.Model Require Import Loader.
From Verif.Spec Require Import Bytes ImageSpec BlendSpec RenderSpec Made Convert.
From Verif.Proofs Require Import ConvertProps TurnProps.
From Verif.Tests Require Import Configs Build.

(** ** C109 *)
(** In true colour, a sprite has the same pictures and frames, and where it fails
    it fails alike. *)
Theorem C109_converted : forall c inflate s s', cfg_ok c -> typed c s ->
  Forall (fun im => rgba_size im < 2 ^ usize_bits c) (af_images s) -> converted s s' ->
  (forall j target, load_image c inflate s j target = load_image c inflate s' j target) /\
  (forall k target sel, render_frame c inflate s k target sel = render_frame c inflate s' k target sel) /\
  (forall hasher k target,
     combined_frame_image c inflate hasher s k target = combined_frame_image c inflate hasher s' k target).
Proof. exact converted_alike. Qed.
Print Assumptions C109_converted.

(** Three pixels with a palette, as greys, and in true colour. *)
Definition three (depth : Z) (more : list bytes) (px : bytes) : bytes :=
  hdr 1 depth 3 1 ++ frm (more ++ [layer_ch 1 0 0 200 [97]; raw_cel_ch 0 0 0 255 3 1 px]).
Definition true_three : bytes := three 32 [] [9; 9; 9; 0; 70; 70; 70; 255; 50; 50; 50; 128].
Definition no_inflate : inflater := fun _ _ => (ZError, []).
Definition drawn_with (i : bytes) : option buf_out :=
  match load dbg32 i with Ok s => Some (render_frame dbg32 no_inflate s 0 (repeat 100 12) SelVisible) | _ => None end.
Example C109_example :
  (exists s s', load dbg32 (three 8 [palette_ch 3 0 2 [(9, 9, 9, 255); (70, 70, 70, 255); (50, 50, 50, 128)]] [0; 1; 2]) = Ok s /\
     load dbg32 true_three = Ok s' /\ converted s s') /\
  (exists s s', load dbg32 (three 16 [] [9; 0; 70; 255; 50; 128]) = Ok s /\ load dbg32 true_three = Ok s' /\ converted s s') /\
  drawn_with true_three = Some (Ok [100; 100; 100; 100; 73; 73; 73; 222; 69; 69; 69; 161]).
Proof.
  split; [|split; [|vm_compute; reflexivity]].
  - do 2 eexists. split; [vm_compute; reflexivity|]. split; [vm_compute; reflexivity|].
    do 5 (split; [reflexivity|]). constructor; [|constructor]. do 4 (split; [reflexivity|]).
    eexists. split; [reflexivity|]. split; reflexivity.
  - do 2 eexists. split; [vm_compute; reflexivity|]. split; [vm_compute; reflexivity|].
    do 5 (split; [reflexivity|]). constructor; [|constructor]. do 4 (split; [reflexivity|]). split; reflexivity.
Qed.

(** ** C110 *)
(** Exchanging left and right, top and bottom or the axes of all pictures and of
    their places does the same to the frames.  The rest of the buffer may hold
    anything. *)
Theorem C110_turned : forall c inflate t s s' sel k target target' r, cfg_ok c -> inflate_ok inflate ->
  typed c s -> typed c s' -> made_fits c s -> made_fits c s' -> cels_fit_images s -> turned t s s' ->
  is_bytes target -> is_bytes target' -> canvas_size s' <= zlen target' ->
  turned_pixels t (canvas s) target target' ->
  render_frame c inflate s (Z.of_nat k) target sel = Ok r ->
  exists r', render_frame c inflate s' (Z.of_nat k) target' sel = Ok r' /\ turned_pixels t (canvas s) r r'.
Proof. exact turned_frames. Qed.
Print Assumptions C110_turned.

(** The hypothesis about the sizes of cels holds for all loaded sprites. *)
Theorem C110_loaded : forall c i s, cfg_ok c -> is_bytes i -> addressable c i -> load c i = Ok s -> cels_fit_images s.
Proof. exact loaded_cels_fit. Qed.
Print Assumptions C110_loaded.

(** Two pictures on a canvas of 3 x 2, the second of which sticks out to the
    right; and with exchanged axes. *)
Definition wide : bytes :=
  hdr 1 32 3 2 ++ frm [layer_ch 1 0 0 255 [97]; layer_ch 1 0 1 128 [98];
    raw_cel_ch 0 0 0 255 3 1 [10; 20; 30; 255; 40; 50; 60; 255; 70; 80; 90; 255];
    raw_cel_ch 1 2 0 255 2 2 [1; 2; 3; 255; 9; 9; 9; 9; 5; 6; 7; 255; 9; 9; 9; 9]].
Definition tall : bytes :=
  hdr 1 32 2 3 ++ frm [layer_ch 1 0 0 255 [97]; layer_ch 1 0 1 128 [98];
    raw_cel_ch 0 0 0 255 1 3 [10; 20; 30; 255; 40; 50; 60; 255; 70; 80; 90; 255];
    raw_cel_ch 1 0 2 255 2 2 [1; 2; 3; 255; 5; 6; 7; 255; 9; 9; 9; 9; 9; 9; 9; 9]].
Definition picture (i : bytes) : option buf_out :=
  match load rel64 i with Ok s => Some (render_frame rel64 no_inflate s 0 (repeat 0 24) SelVisible) | _ => None end.
Example C110_example :
  (exists s s', load rel64 wide = Ok s /\ load rel64 tall = Ok s' /\ turned Swap s s') /\
  picture wide = Some (Ok [10; 20; 30; 255; 40; 50; 60; 255; 35; 41; 46; 255; 0; 0; 0; 0; 0; 0; 0; 0; 5; 6; 7; 128]) /\
  picture tall = Some (Ok [10; 20; 30; 255; 0; 0; 0; 0; 40; 50; 60; 255; 0; 0; 0; 0; 35; 41; 46; 255; 5; 6; 7; 128]).
Proof.
  split; [|split; vm_compute; reflexivity].
  do 2 eexists. split; [vm_compute; reflexivity|]. split; [vm_compute; reflexivity|].
  do 4 (split; [reflexivity|]).
  assert (A : forall x, 0 <= x < 1 -> x = 0) by lia. assert (B : forall x, 0 <= x < 2 -> x = 0 \/ x = 1) by lia.
  assert (C : forall x, 0 <= x < 3 -> x = 0 \/ x = 1 \/ x = 2) by lia.
  split.
  - constructor; [|constructor; [|constructor]].
    + do 3 (split; [split; reflexivity || reflexivity|]). intros x y Hx Hy. cbn in Hx, Hy.
      apply C in Hx. apply A in Hy. destruct Hx as [->|[->| ->]]; subst y; reflexivity.
    + do 3 (split; [split; reflexivity || reflexivity|]). intros x y Hx Hy. cbn in Hx, Hy.
      apply B in Hx. apply B in Hy. destruct Hx as [->| ->], Hy as [->| ->]; reflexivity.
  - constructor; [|constructor]. constructor; [|constructor; [|constructor]]; repeat split; reflexivity.
Qed.
