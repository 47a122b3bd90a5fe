(** What a file looks like, with all blend modes (C105). *)
From Verif.Model Require Import Loader.
From Verif.Spec Require Import Bytes Format BlendSpec HslSpec LoaderSpec RenderSpec ImageSpec Composite Loads Looks AllModes.
From Verif.Proofs Require Import AllModesProps.
From Verif.Tests Require Import Configs Build.

(** ** C105 *)
(** One pixel over any backdrop, opaque or not: the four modes of C48 and C71 as
    well.  Debug builds panic or have the same result. *)
Theorem C105_pixel : forall m back front o, known_mode m -> is_px back -> is_px front -> is_byte o ->
  exists r, is_px r /\ any_composite m back front o r /\
    (forall c, debug c = false -> exists f, blend_mode_to_blend_fn c m = Ok f /\ f back front o = Ok r) /\
    (forall c, debug c = true -> exists f, blend_mode_to_blend_fn c m = Ok f /\
       ((hsl m /\ f back front o = Panic PDebugAssert) \/ f back front o = Ok r)).
Proof. exact any_pixel. Qed.
Print Assumptions C105_pixel.

(** Every pixel of every frame that is drawn. *)
Theorem C105_frame : forall c i raw f, cfg_ok c -> is_bytes i -> addressable c i ->
  raw_file_l (kept_error c) raw i -> complete_file raw f ->
  forall inflate, inflate_ok inflate -> file_fits c f ->
  forall sel k fr target r s, nth_error (f_frames f) k = Some fr -> is_bytes target ->
  load c i = Ok s -> render_frame c inflate s (Z.of_nat k) target sel = Ok r ->
  forall x y, 0 <= x < file_width f -> 0 <= y < file_height f ->
    exists back p, pixel (file_width f) target x y = Some back /\ pixel (file_width f) r x y = Some p /\
      appears inflate f sel x y (filled fr) back p.
Proof. exact frame_appears. Qed.
Print Assumptions C105_frame.

(** A hue layer over a half transparent pixel and over nothing.  The alpha of the
    first pixel goes up by less than the front's. *)
Definition hue_file : bytes :=
  hdr 1 32 2 1 ++ frm [layer_ch 1 0 0 255 [97]; layer_ch 1 0 12 255 [98]; raw_cel_ch 0 0 0 255 1 1 [200; 100; 50; 128];
                       raw_cel_ch 1 0 0 255 2 1 [10; 20; 30; 255; 10; 20; 30; 255]].
Example C105_example : exists s, load rel64 hue_file = Ok s /\
  render_frame rel64 (fun _ _ => (ZError, [])) s 0 (repeat 0 8) SelAll = Ok [153; 80; 46; 159; 10; 20; 30; 255] /\
  load dbg64 hue_file = Ok s /\ render_frame dbg64 (fun _ _ => (ZError, [])) s 0 (repeat 0 8) SelAll = Panic PDebugAssert.
Proof. eexists. split; [vm_compute; reflexivity|]. repeat apply conj; vm_compute; reflexivity. Qed.
