(** Exactly when and what [render_frame] draws (C92). *)
From Verif.Model Require Import Loader.
From Verif.Spec Require Import Bytes ImageSpec BlendSpec RenderSpec.
From Verif.Proofs Require Import ExactProps.
From Verif.Tests Require Import Configs Build.

(** ** C92 *)
(** These conditions on the returned buffer hold, and only that buffer has them.
    They cover debug builds and all blend modes: [composed] has no result for a
    pixel where an assertion fails. *)
Theorem C92_exact : forall c i s, cfg_ok c -> is_bytes i -> addressable c i -> load c i = Ok s ->
  forall inflate, inflate_ok inflate -> sprite_fits c s ->
  forall sel k sf target r, nth_error (api_frames s) k = Some sf -> is_bytes target ->
  (render_frame c inflate s (Z.of_nat k) target sel = Ok r <->
   canvas_size s <= zlen target /\ zlen r = zlen target /\
   skipn (Z.to_nat (canvas_size s)) r = skipn (Z.to_nat (canvas_size s)) target /\
   (forall cel l, In cel (sf_cels sf) -> drawn s sel cel = Some l ->
      (exists image, cel_image inflate s cel image) /\ known_mode (ly_blend_mode l)) /\
   forall x y, 0 <= x < canvas_width s -> 0 <= y < canvas_height s ->
     exists back p, pixel (canvas_width s) target x y = Some back /\ pixel (canvas_width s) r x y = Some p /\
       composed c inflate s sel x y (sf_cels sf) back p).
Proof. exact render_exactly. Qed.
Print Assumptions C92_exact.

(** When there is a result at all. *)
Theorem C92_possible : forall c i s, cfg_ok c -> is_bytes i -> addressable c i -> load c i = Ok s ->
  forall inflate, inflate_ok inflate -> sprite_fits c s ->
  forall sel k sf target, nth_error (api_frames s) k = Some sf -> is_bytes target -> canvas_size s <= zlen target ->
  ((exists r, render_frame c inflate s (Z.of_nat k) target sel = Ok r) <->
   (forall cel l, In cel (sf_cels sf) -> drawn s sel cel = Some l ->
      (exists image, cel_image inflate s cel image) /\ known_mode (ly_blend_mode l)) /\
   forall x y back, 0 <= x < canvas_width s -> 0 <= y < canvas_height s -> pixel (canvas_width s) target x y = Some back ->
     exists p, composed c inflate s sel x y (sf_cels sf) back p).
Proof. exact render_possible. Qed.
Print Assumptions C92_possible.

(** A hue layer and, in the second column, nothing: whether a debug build can
    draw it depends on the first pixel of the buffer only. *)
Definition hue_layer : bytes := hdr 1 32 2 1 ++ frm [layer_ch 1 0 12 255 [97]; raw_cel_ch 0 0 0 255 1 1 [1; 2; 3; 4]].
Definition nothing_packed : inflater := fun _ _ => (ZError, []).
Example C92_example : exists s, load dbg64 hue_layer = Ok s /\
  render_frame dbg64 nothing_packed s 0 [0; 0; 0; 0; 9; 9; 9; 255; 77] SelAll = Ok [1; 2; 3; 4; 9; 9; 9; 255; 77] /\
  render_frame dbg64 nothing_packed s 0 [9; 9; 9; 255; 9; 9; 9; 255] SelAll = Panic PDebugAssert.
Proof. eexists. split; [vm_compute; reflexivity|]. repeat apply conj; vm_compute; reflexivity. Qed.
