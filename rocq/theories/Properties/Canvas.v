(** What rendering does to the canvas (C59-C62). *)
From Verif.Model Require Import Loader.
From Verif.Spec Require Import Bytes ImageSpec BlendSpec RenderSpec.
From Verif.Proofs Require Import CanvasProps SplitProps.
From Verif.Tests Require Import Configs Build.

(** ** C59 *)
Theorem C59_outside : forall c i s, cfg_ok c -> is_bytes i -> addressable c i -> load c i = Ok s ->
  forall inflate, inflate_ok inflate -> forall sel, sprite_fits c s ->
  forall k sf, nth_error (api_frames s) k = Some sf ->
  forall target r x y, is_bytes target -> render_frame c inflate s (Z.of_nat k) target sel = Ok r ->
  0 <= x < canvas_width s -> 0 <= y < canvas_height s ->
  (forall cel l, In cel (sf_cels sf) -> drawn s sel cel = Some l -> covers cel x y = false) ->
  pixel (canvas_width s) r x y = pixel (canvas_width s) target x y.
Proof. exact pixels_kept. Qed.
Print Assumptions C59_outside.

Definition no_inflate : inflater := fun _ _ => (ZError, []).

(** A 2 x 2 canvas with an opaque normal layer in the upper row and, above it, a
    multiply layer on the diagonal. *)
Definition rows_file : bytes :=
  hdr 1 32 2 2 ++
  frm [layer_ch 1 0 0 255 [97]; layer_ch 1 0 1 255 [98];
       raw_cel_ch 0 0 0 255 2 1 [10; 20; 30; 255; 40; 50; 60; 255];
       raw_cel_ch 1 0 0 255 2 2 [128; 128; 128; 255; 0; 0; 0; 0; 0; 0; 0; 0; 128; 128; 128; 255]].
Definition some_canvas : bytes := [1; 2; 3; 4; 5; 6; 7; 8; 9; 10; 11; 12; 100; 100; 100; 100].
Definition other_canvas : bytes := [50; 60; 70; 80; 90; 0; 0; 0; 9; 10; 11; 12; 200; 100; 100; 255].
Example C59_example : exists s sf, load dbg64 rows_file = Ok s /\ nth_error (api_frames s) 0 = Some sf /\
  forallb (fun cel => negb (covers cel 0 1)) (firstn 1 (sf_cels sf)) = true /\
  render_frame dbg64 no_inflate s 0 some_canvas (SelMask [true]) =
    Ok [10; 20; 30; 255; 40; 50; 60; 255; 9; 10; 11; 12; 100; 100; 100; 100].
Proof.
  do 2 eexists. split; [vm_compute; reflexivity|]. split; [reflexivity|]. split; vm_compute; reflexivity.
Qed.

(** ** C60 *)
(** An opaque pixel of a normal layer hides what the buffer held ... *)
Theorem C60_hidden : forall c i s, cfg_ok c -> is_bytes i -> addressable c i -> load c i = Ok s ->
  forall inflate, inflate_ok inflate -> forall sel, sprite_fits c s ->
  forall k sf, nth_error (api_frames s) k = Some sf ->
  forall target target' r r' x y cel l image front, is_bytes target -> is_bytes target' ->
  render_frame c inflate s (Z.of_nat k) target sel = Ok r ->
  render_frame c inflate s (Z.of_nat k) target' sel = Ok r' ->
  0 <= x < canvas_width s -> 0 <= y < canvas_height s ->
  In cel (sf_cels sf) -> drawn s sel cel = Some l -> ly_blend_mode l = BNormal -> ly_opacity l = 255 ->
  covers cel x y = true -> cel_image inflate s cel image ->
  pixel (fst (fc_size cel)) image (x - fst (fc_origin cel)) (y - snd (fc_origin cel)) = Some front ->
  pa front = 255 ->
  pixel (canvas_width s) r x y = pixel (canvas_width s) r' x y.
Proof. exact pixels_hidden. Qed.
Print Assumptions C60_hidden.

(** ... and is shown itself if no later cel covers it. *)
Theorem C60_on_top : forall c i s, cfg_ok c -> is_bytes i -> addressable c i -> load c i = Ok s ->
  forall inflate, inflate_ok inflate -> forall sel, sprite_fits c s ->
  forall k sf, nth_error (api_frames s) k = Some sf ->
  forall target r x y before cel after l image front, is_bytes target ->
  render_frame c inflate s (Z.of_nat k) target sel = Ok r ->
  0 <= x < canvas_width s -> 0 <= y < canvas_height s ->
  sf_cels sf = before ++ cel :: after ->
  (forall cel l, In cel after -> drawn s sel cel = Some l -> covers cel x y = false) ->
  drawn s sel cel = Some l -> ly_blend_mode l = BNormal -> ly_opacity l = 255 ->
  covers cel x y = true -> cel_image inflate s cel image ->
  pixel (fst (fc_size cel)) image (x - fst (fc_origin cel)) (y - snd (fc_origin cel)) = Some front ->
  pa front = 255 ->
  pixel (canvas_width s) r x y = Some front.
Proof. exact pixels_on_top. Qed.
Print Assumptions C60_on_top.

Example C60_example : exists s, load dbg64 rows_file = Ok s /\
  render_frame dbg64 no_inflate s 0 some_canvas SelAll =
    Ok [5; 10; 15; 255; 40; 50; 60; 255; 9; 10; 11; 12; 79; 79; 79; 255] /\
  render_frame dbg64 no_inflate s 0 other_canvas SelAll =
    Ok [5; 10; 15; 255; 40; 50; 60; 255; 9; 10; 11; 12; 100; 50; 50; 255].
Proof. eexists. split; [vm_compute; reflexivity|]. split; vm_compute; reflexivity. Qed.

(** ** C61 *)
Theorem C61_alpha : forall c i s, cfg_ok c -> is_bytes i -> addressable c i -> load c i = Ok s ->
  forall inflate, inflate_ok inflate -> forall sel, sprite_fits c s ->
  forall k sf, nth_error (api_frames s) k = Some sf ->
  forall target r x y p q, is_bytes target -> render_frame c inflate s (Z.of_nat k) target sel = Ok r ->
  0 <= x < canvas_width s -> 0 <= y < canvas_height s ->
  (forall cel l, In cel (sf_cels sf) -> drawn s sel cel = Some l -> separable (ly_blend_mode l)) ->
  pixel (canvas_width s) target x y = Some p -> pixel (canvas_width s) r x y = Some q ->
  pa p <= pa q.
Proof. exact alpha_grows. Qed.
Print Assumptions C61_alpha.

(** Whatever the blend modes: *)
Theorem C61_opaque : forall c i s, cfg_ok c -> is_bytes i -> addressable c i -> load c i = Ok s ->
  forall inflate, inflate_ok inflate -> forall sel, sprite_fits c s ->
  forall k sf, nth_error (api_frames s) k = Some sf ->
  forall target r x y p q, is_bytes target -> render_frame c inflate s (Z.of_nat k) target sel = Ok r ->
  0 <= x < canvas_width s -> 0 <= y < canvas_height s ->
  pixel (canvas_width s) target x y = Some p -> pixel (canvas_width s) r x y = Some q ->
  pa p = 255 -> pa q = 255.
Proof. exact opaque_stays. Qed.
Print Assumptions C61_opaque.

(** A hue layer over an opaque pixel, release build. *)
Definition hue_file : bytes :=
  hdr 1 32 1 1 ++ frm [layer_ch 1 0 12 255 [97]; raw_cel_ch 0 0 0 255 1 1 [10; 200; 30; 100]].
Example C61_example : exists s r g b, load rel64 hue_file = Ok s /\
  render_frame rel64 no_inflate s 0 [1; 2; 3; 255] SelAll = Ok [r; g; b; 255].
Proof. do 4 eexists. split; [vm_compute; reflexivity|]. vm_compute. reflexivity. Qed.

(** ** C62 *)
(** Rendering the layers below number [n] first, and the others over the result,
    is the same as rendering all at once. *)
Theorem C62_two_steps : forall c i s, cfg_ok c -> is_bytes i -> addressable c i -> load c i = Ok s ->
  forall inflate, inflate_ok inflate -> sprite_fits c s ->
  forall sel below above n,
  (forall j l, nth_error (api_layers s) j = Some l ->
     chosen below (Z.of_nat j) l = (Z.of_nat j <? n) && chosen sel (Z.of_nat j) l /\
     chosen above (Z.of_nat j) l = negb (Z.of_nat j <? n) && chosen sel (Z.of_nat j) l) ->
  forall k sf target, nth_error (api_frames s) k = Some sf -> is_bytes target ->
  render_frame c inflate s (Z.of_nat k) target sel =
  match render_frame c inflate s (Z.of_nat k) target below with
  | Ok r => render_frame c inflate s (Z.of_nat k) r above
  | Err e => Err e
  | Panic q => Panic q
  end.
Proof. exact two_steps. Qed.
Print Assumptions C62_two_steps.

Example C62_example : exists s r, load dbg64 rows_file = Ok s /\
  render_frame dbg64 no_inflate s 0 some_canvas (SelMask [true]) = Ok r /\
  render_frame dbg64 no_inflate s 0 r (SelMask [false; true]) =
    Ok [5; 10; 15; 255; 40; 50; 60; 255; 9; 10; 11; 12; 79; 79; 79; 255].
Proof. do 2 eexists. split; [vm_compute; reflexivity|]. split; [vm_compute; reflexivity|]. vm_compute. reflexivity. Qed.
