(** More layers, more alpha (C116). *)
From Verif.Model Require Import Loader.
From Verif.Spec Require Import Bytes BlendSpec ImageSpec RenderSpec.
From Verif.Proofs Require Import SelectProps.
From Verif.Tests Require Import Configs Build.

(** ** C116 *)
(** The full claim is about all blend modes.  Proved for all but hue, saturation,
    colour and luminosity: if [sel'] contains the layers of [sel], and the canvas
    was not more transparent before, no pixel is more transparent. *)
Theorem C116_more_partial : forall c i s, cfg_ok c -> is_bytes i -> addressable c i -> load c i = Ok s ->
  forall inflate, inflate_ok inflate -> forall sel sel' k sf target target' r r', sprite_fits c s ->
  nth_error (api_frames s) k = Some sf -> is_bytes target -> is_bytes target' ->
  (forall cel l, In cel (sf_cels sf) -> drawn s sel cel = Some l -> drawn s sel' cel = Some l) ->
  (forall cel l, In cel (sf_cels sf) -> drawn s sel' cel = Some l -> separable (ly_blend_mode l)) ->
  render_frame c inflate s (Z.of_nat k) target sel = Ok r ->
  render_frame c inflate s (Z.of_nat k) target' sel' = Ok r' ->
  forall x y p p' q q', 0 <= x < canvas_width s -> 0 <= y < canvas_height s ->
  pixel (canvas_width s) target x y = Some p -> pixel (canvas_width s) target' x y = Some p' -> pa p <= pa p' ->
  pixel (canvas_width s) r x y = Some q -> pixel (canvas_width s) r' x y = Some q' -> pa q <= pa q'.
Proof. exact more_layers. Qed.
Print Assumptions C116_more_partial.

(** All layers contain the visible ones and those of every mask; a mask those of
    a mask with fewer entries set. *)
Theorem C116_selections : forall s,
  (forall cel l, drawn s SelVisible cel = Some l -> drawn s SelAll cel = Some l) /\
  (forall mask cel l, drawn s (SelMask mask) cel = Some l -> drawn s SelAll cel = Some l) /\
  (forall mask mask', (forall k, nth_error mask k = Some true -> nth_error mask' k = Some true) ->
     forall cel l, drawn s (SelMask mask) cel = Some l -> drawn s (SelMask mask') cel = Some l).
Proof. exact selected_more. Qed.
Print Assumptions C116_selections.

(** In release builds a layer below an opaque one of mode colour takes alpha away. *)
Theorem C116_fewer_refuted : forall inflate w, w = 32 \/ w = 64 ->
  let c := {| debug := false; usize_bits := w |} in
  exists i s, is_bytes i /\ addressable c i /\ load c i = Ok s /\
    render_frame c inflate s 0 [0; 0; 0; 0] (SelMask [false; true]) = Ok [10; 20; 30; 255] /\
    render_frame c inflate s 0 [0; 0; 0; 0] SelAll = Ok [2; 5; 7; 159].
Proof. exact fewer_opaque. Qed.
Print Assumptions C116_fewer_refuted.

(** A hidden multiply layer below. *)
Definition tinted : bytes := hdr 1 32 1 1 ++
  frm [layer_ch 0 0 1 200 [97]; layer_ch 1 0 0 255 [98]; raw_cel_ch 0 0 0 255 1 1 [9; 9; 9; 50]; raw_cel_ch 1 0 0 255 1 1 [10; 20; 30; 100]].
Example C116_example : exists s, load dbg64 tinted = Ok s /\
  render_frame dbg64 (fun _ _ => (ZError, [])) s 0 [0; 0; 0; 0] SelVisible = Ok [10; 20; 30; 100] /\
  render_frame dbg64 (fun _ _ => (ZError, [])) s 0 [0; 0; 0; 0] SelAll = Ok [9; 17; 25; 124].
Proof. eexists. split; [vm_compute; reflexivity|]. split; vm_compute; reflexivity. Qed.
