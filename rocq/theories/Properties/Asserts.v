(** Exactly where debug builds refuse what release builds draw (C114). *)
From Coq Require Import QArith.
From Verif.Model Require Import Loader.
From Verif.Spec Require Import Bytes BlendSpec HslSpec ImageSpec RenderSpec Asserts.
From Verif.Proofs Require Import AssertProps.
From Verif.Tests Require Import Configs Build.
Local Open Scope Z_scope.

(** ** C114 *)
(** The four modes on one pixel. *)
Theorem C114_pixel : forall m back front o c, hsl m -> is_px back -> is_px front -> is_byte o -> debug c = true ->
  exists f, blend_mode_to_blend_fn c m = Ok f /\
    (f back front o = Panic PDebugAssert <-> asserts_fail m back front) /\
    ((exists r, f back front o = Ok r) <-> ~ asserts_fail m back front).
Proof. exact hsl_asserts. Qed.
Print Assumptions C114_pixel.

(** Frames: the debug build draws what the release build draws, unless an
    assertion fails on the way. *)
Theorem C114_frame : forall w i s, let d := {| debug := true; usize_bits := w |} in let r := {| debug := false; usize_bits := w |} in
  cfg_ok d -> is_bytes i -> addressable d i -> load d i = Ok s ->
  forall inflate, inflate_ok inflate ->
  forall sel k sf target res, sprite_fits d s -> nth_error (api_frames s) k = Some sf -> is_bytes target ->
  (render_frame d inflate s (Z.of_nat k) target sel = Ok res <->
   render_frame r inflate s (Z.of_nat k) target sel = Ok res /\
   forall x y back, 0 <= x < canvas_width s -> 0 <= y < canvas_height s -> pixel (canvas_width s) target x y = Some back ->
     calm r inflate s sel x y (sf_cels sf) back).
Proof. exact debug_frames. Qed.
Print Assumptions C114_frame.

(** A nearly transparent front passes over the darkest colours and with a grey
    one; and fails over the next brighter colour. *)
Example C114_example :
  hsl_color dbg64 (mkpx 0 1 3 255) (mkpx 10 20 30 1) 255 = Ok (mkpx 233 234 236 255) /\
  hsl_color dbg64 (mkpx 0 1 4 255) (mkpx 10 20 30 1) 255 = Panic PDebugAssert /\
  asserts_fail BColor (mkpx 0 1 4 255) (mkpx 10 20 30 1) /\
  ~ asserts_fail BColor (mkpx 0 1 3 255) (mkpx 10 20 30 1) /\
  ~ asserts_fail BColor (mkpx 200 100 50 255) (mkpx 20 20 20 1) /\
  (exists r, hsl_color dbg64 (mkpx 200 100 50 255) (mkpx 20 20 20 1) 255 = Ok r) /\
  hsl_color dbg64 (mkpx 200 100 50 255) (mkpx 20 20 20 2) 255 = Panic PDebugAssert.
Proof.
  split; [vm_compute; reflexivity|]. split; [vm_compute; reflexivity|].
  split. { split; [discriminate|]. right. split; reflexivity. }
  split. { intros [_ [H|[H _]]]; [now apply H|]. vm_compute in H. discriminate. }
  split. { intros [_ [H|[_ H]]]; [now apply H|]. vm_compute in H. discriminate. }
  split; [eexists; vm_compute; reflexivity|vm_compute; reflexivity].
Qed.

(** A sprite with such a pixel: what decides is what is below it. *)
Definition faint : bytes := hdr 1 32 2 1 ++ frm [layer_ch 1 0 14 255 [97]; raw_cel_ch 0 0 0 255 2 1 [10; 20; 30; 1; 10; 20; 30; 1]].
Example C114_frame_example : exists s, load dbg64 faint = Ok s /\
  render_frame dbg64 (fun _ _ => (ZError, [])) s 0 [0; 1; 3; 255; 0; 0; 0; 0] SelAll = Ok [233; 234; 236; 255; 10; 20; 30; 1] /\
  render_frame rel64 (fun _ _ => (ZError, [])) s 0 [0; 1; 4; 255; 0; 0; 0; 0] SelAll = Ok [7; 6; 5; 255; 10; 20; 30; 1] /\
  render_frame dbg64 (fun _ _ => (ZError, [])) s 0 [0; 1; 4; 255; 0; 0; 0; 0] SelAll = Panic PDebugAssert.
Proof. eexists. split; [vm_compute; reflexivity|]. repeat apply conj; vm_compute; reflexivity. Qed.
