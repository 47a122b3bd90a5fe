(** Enlarged sprites (C121). *)
From Verif.Model Require Import Loader.
From Verif.Spec Require Import Bytes ImageSpec RenderSpec Made Convert Scaled.
From Verif.Proofs Require Import ScaleProps.
From Verif.Tests Require Import Configs Build.

(** ** C121 *)
(** If the pictures, their places and the canvas are enlarged, so are the
    frames ... *)
Theorem C121_scaled : forall c inflate n m s s' sel, cfg_ok c -> inflate_ok inflate -> 0 < n -> 0 < m ->
  typed c s -> typed c s' -> made_fits c s -> made_fits c s' -> cels_fit_images s -> scaled n m s s' ->
  forall k target target' r, is_bytes target -> is_bytes target' -> canvas_size s' <= zlen target' ->
  scaled_pixels n m (canvas s) target target' ->
  render_frame c inflate s (Z.of_nat k) target sel = Ok r ->
  exists r', render_frame c inflate s' (Z.of_nat k) target' sel = Ok r' /\ scaled_pixels n m (canvas s) r r'.
Proof. exact scaled_frames. Qed.
Print Assumptions C121_scaled.

(** ... and what can be drawn large can be drawn small. *)
Theorem C121_back : forall c inflate n m s s' sel, cfg_ok c -> inflate_ok inflate -> 0 < n -> 0 < m ->
  typed c s -> typed c s' -> made_fits c s -> made_fits c s' -> cels_fit_images s -> scaled n m s s' ->
  forall k target target' r', is_bytes target -> is_bytes target' -> canvas_size s <= zlen target ->
  scaled_pixels n m (canvas s) target target' ->
  render_frame c inflate s' (Z.of_nat k) target' sel = Ok r' ->
  exists r, render_frame c inflate s (Z.of_nat k) target sel = Ok r.
Proof. exact scaled_frames_back. Qed.
Print Assumptions C121_back.

(** A canvas of 2 x 1 with a picture that sticks out to the left, twice as wide
    and three times as high. *)
Definition small : bytes :=
  hdr 1 32 2 1 ++ frm [layer_ch 1 0 0 255 [97]; layer_ch 1 0 1 128 [98];
    raw_cel_ch 0 0 0 255 2 1 [10; 20; 30; 255; 40; 50; 60; 255];
    raw_cel_ch 1 (-1) 0 255 2 1 [9; 9; 9; 9; 200; 100; 0; 255]].
Definition large : bytes :=
  hdr 1 32 4 3 ++ frm [layer_ch 1 0 0 255 [97]; layer_ch 1 0 1 128 [98];
    raw_cel_ch 0 0 0 255 4 3 (concat (repeat [10; 20; 30; 255; 10; 20; 30; 255; 40; 50; 60; 255; 40; 50; 60; 255] 3));
    raw_cel_ch 1 (-2) 0 255 4 3 (concat (repeat [9; 9; 9; 9; 9; 9; 9; 9; 200; 100; 0; 255; 200; 100; 0; 255] 3))].
Definition no_inflate : inflater := fun _ _ => (ZError, []).
Definition picture (i : bytes) : option buf_out :=
  match load rel64 i with Ok s => Some (render_frame rel64 no_inflate s 0 (repeat 0 48) SelVisible) | _ => None end.

Ltac each H := match type of H with 0 <= ?x < ?n =>
  let E := fresh in assert (E : x = 0 \/ x = 1 \/ x = 2) by lia; destruct E as [E|[E|E]]; subst x; try lia end.
Example C121_example :
  (exists s s', load rel64 small = Ok s /\ load rel64 large = Ok s' /\ scaled 2 3 s s') /\
  picture small = Some (Ok ([9; 14; 15; 255; 40; 50; 60; 255] ++ repeat 0 40)) /\
  picture large = Some (Ok (concat (repeat [9; 14; 15; 255; 9; 14; 15; 255; 40; 50; 60; 255; 40; 50; 60; 255] 3))).
Proof.
  split; [|split; vm_compute; reflexivity].
  do 2 eexists. split; [vm_compute; reflexivity|]. split; [vm_compute; reflexivity|].
  do 4 (split; [reflexivity|]). split.
  - constructor; [|constructor; [|constructor]].
    all: do 3 (split; [split; reflexivity || reflexivity|]); intros x y i j Hx Hy Hi Hj; cbn in Hx, Hy;
      each Hx; each Hy; each Hi; each Hj; reflexivity.
  - constructor; [|constructor]. constructor; [|constructor; [|constructor]]; repeat split; reflexivity.
Qed.
