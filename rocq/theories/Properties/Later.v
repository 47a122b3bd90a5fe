(** A frame rendered first and put on its background later (C126). *)
From Coq Require Import QArith Qabs.
From Verif.Model Require Import Loader.
From Verif.Spec Require Import Bytes BlendSpec ImageSpec RenderSpec Ideal Piles Merged Later.
From Verif.Proofs Require Import LaterProps.
From Verif.Tests Require Import Configs Build.
Local Open Scope Z_scope.

(** ** C126 *)
(** [p] is drawn directly on [back], [p'] is the frame rendered on an empty canvas
    and then put on [back] by mode normal. *)
Theorem C126_later : forall c i s inflate, cfg_ok c -> is_bytes i -> addressable c i -> load c i = Ok s -> inflate_ok inflate ->
  forall sel k sf target r r0, sprite_fits c s -> nth_error (api_frames s) k = Some sf -> is_bytes target ->
  (forall cel l, In cel (sf_cels sf) -> drawn s sel cel = Some l -> ly_blend_mode l = BNormal) ->
  render_frame c inflate s (Z.of_nat k) target sel = Ok r ->
  render_frame c inflate s (Z.of_nat k) (blank s) sel = Ok r0 ->
  forall x y, 0 <= x < canvas_width s -> 0 <= y < canvas_height s ->
  exists back p q p' fs, pixel (canvas_width s) target x y = Some back /\ pixel (canvas_width s) r x y = Some p /\
    pixel (canvas_width s) r0 x y = Some q /\ normal c back q 255 = Ok p' /\
    pile inflate s sel x y (sf_cels sf) fs /\
    ((length fs <= 1)%nat -> p' = p \/ (pa p' = 0 /\ pa p = 0)) /\
    near (2 * inject_Z (Z.of_nat (length fs)) + 1) (5 * inject_Z (Z.of_nat (length fs)) + 2) p p' /\
    forall t, (0 < t)%Q -> (forall front o, In (front, o) fs -> (t <= strength front o)%Q) -> near (2 / t + 1) (5 / t + 2) p p'.
Proof. exact later_frame. Qed.
Print Assumptions C126_later.

(** With two layers there can be a difference: 87 against 89. *)
Definition two_layers : bytes :=
  hdr 1 32 1 1 ++ frm [layer_ch 1 0 0 255 [97]; layer_ch 1 0 0 255 [98];
                       raw_cel_ch 0 0 0 255 1 1 [182; 182; 182; 195]; raw_cel_ch 1 0 0 255 1 1 [0; 0; 0; 120]].
Definition no_inflate : inflater := fun _ _ => (ZError, []).
Example C126_example : exists s, load dbg64 two_layers = Ok s /\ blank s = [0; 0; 0; 0] /\
  render_frame dbg64 no_inflate s 0 [109; 109; 109; 255] SelAll = Ok [87; 87; 87; 255] /\
  render_frame dbg64 no_inflate s 0 [0; 0; 0; 0] SelAll = Ok [85; 85; 85; 223] /\
  normal dbg64 (mkpx 109 109 109 255) (mkpx 85 85 85 223) 255 = Ok (mkpx 89 89 89 255).
Proof. eexists. repeat split; vm_compute; reflexivity. Qed.
