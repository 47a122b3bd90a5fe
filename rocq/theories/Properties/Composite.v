(** Compositing with any alpha (C77); drawings written, loaded and rendered (C78). *)
From Verif.Model Require Import Loader Inflate.
From Verif.Spec Require Import Bytes BlendSpec ImageSpec RenderSpec Zlib Drawing Composite.
From Verif.Proofs Require Import Utf8Facts DrawingProps CompositeProps.
From Verif.Tests Require Import Configs Build.

(** ** C77 *)
Theorem C77_composite : forall m back front o, separable m -> is_px back -> is_px front -> is_byte o ->
  exists r, is_px r /\ (forall q, composite m back front o q <-> q = r) /\
    forall c, exists f, blend_mode_to_blend_fn c m = Ok f /\ f back front o = Ok r.
Proof. exact composite_iff. Qed.
Print Assumptions C77_composite.

(** Multiply over a pixel of alpha 200: a little further from the normal result
    than half way to the multiplied colours. *)
Example C77_example :
  let back := mkpx 200 100 50 200 in let front := mkpx 100 200 10 128 in
  composite BNormal back front 255 (mkpx 144 156 28 228) /\
  composite BMultiply back front 255 (mkpx 134 97 25 228) /\
  (exists f, blend_mode_to_blend_fn dbg64 BMultiply = Ok f /\ f back front 255 = Ok (mkpx 134 97 25 228)).
Proof.
  assert (N : over (mkpx 200 100 50 200) (mkpx 100 200 10 128) 255 (mkpx 144 156 28 228))
    by (exists 128; cbn; unfold rounded; cbn; repeat split; lia).
  split; [|split].
  - exists (mkpx 144 156 28 228). split; [exact N|reflexivity].
  - exists (mkpx 144 156 28 228). split; [exact N|]. cbn [pa mkpx Z.eqb].
    exists (mkpx 78 78 2 128), (mkpx 132 88 24 228), (mkpx 135 103 25 228), 128, 100.
    split; [cbn; unfold mode_colour, rounded; cbn; unfold rounded; lia|].
    split; [exists 128; cbn; unfold rounded; cbn; repeat split; lia|].
    unfold px_partway, partway, rounded. repeat split; vm_compute; (reflexivity || discriminate).
  - eexists. split; [reflexivity|]. vm_compute. reflexivity.
Qed.

(** ** C78 *)
Theorem C78_rendered : forall c inflate d sel k ms ps target,
  cfg_ok c -> inflate_ok inflate -> reads_stored inflate -> wf_drawing d -> zlen (drawing_file d) < 2 ^ 28 ->
  (forall k l, on_layer (dr_layers d) sel k = Some l -> separable (ly_blend_mode l)) ->
  nth_error (dr_frames d) k = Some (ms, ps) ->
  is_bytes target -> addressable c target -> fst (dr_size d) * snd (dr_size d) * 4 <= zlen target ->
  exists s r, load c (drawing_file d) = Ok s /\
    render_frame c inflate s (Z.of_nat k) target sel = Ok r /\ zlen r = zlen target /\
    forall x y, 0 <= x < fst (dr_size d) -> 0 <= y < snd (dr_size d) ->
    exists back p, pixel (fst (dr_size d)) target x y = Some back /\ pixel (fst (dr_size d)) r x y = Some p /\
      painted (dr_colours d) (dr_layers d) sel x y (pictures ps) back p.
Proof. exact drawing_rendered. Qed.
Print Assumptions C78_rendered.

(** The colour painted is the only one. *)
Theorem C78_unique : forall m ls sel x y kps, wf_colours m -> Forall wf_sprite_layer ls ->
  (forall k l, on_layer ls sel k = Some l -> separable (ly_blend_mode l)) ->
  Forall (fun kp => wf_picture m (snd kp)) kps ->
  forall back p q, is_px back -> painted m ls sel x y kps back p -> painted m ls sel x y kps back q -> p = q.
Proof. exact painted_unique. Qed.
Print Assumptions C78_unique.

(** A frame with one picture, as large as the canvas and on an opaque layer,
    gives the picture. *)
Theorem C78_single : forall c inflate d sel k j ms ps p l,
  cfg_ok c -> inflate_ok inflate -> reads_stored inflate -> wf_drawing d -> zlen (drawing_file d) < 2 ^ 28 ->
  nth_error (dr_frames d) k = Some (ms, ps) -> pictures ps = [(j, p)] ->
  on_layer (dr_layers d) sel j = Some l -> ly_opacity l = 255 ->
  (forall k l, on_layer (dr_layers d) sel k = Some l -> separable (ly_blend_mode l)) ->
  pic_origin p = (0, 0) -> pic_size p = dr_size d -> addressable c (as_rgba (dr_colours d) (pic_pixels p)) ->
  exists s, load c (drawing_file d) = Ok s /\
    render_frame c inflate s (Z.of_nat k) (repeat 0 (length (as_rgba (dr_colours d) (pic_pixels p)))) sel =
      Ok (as_rgba (dr_colours d) (pic_pixels p)).
Proof. exact single_picture. Qed.
Print Assumptions C78_single.

(** Colours of a palette, below a second picture that lies half outside the
    canvas and is multiplied; with and without the second layer. *)
Definition two_layers : drawing :=
  let ly bm := {| ly_name := []; ly_opacity := 255; ly_blend_mode := bm; ly_visible := true; ly_layer_type := LNormal |} in
  {| dr_size := (2, 1);
     dr_colours := Palette [{| red := 0; green := 0; blue := 0; alpha := 255 |}; {| red := 200; green := 100; blue := 50; alpha := 200 |};
                            {| red := 100; green := 200; blue := 10; alpha := 128 |}] 0;
     dr_layers := [ly BNormal; ly BMultiply];
     dr_frames := [(100, [Some {| pic_origin := (0, 0); pic_size := (2, 1); pic_blocks := [[2; 1]]; pic_compressed := true |};
                          Some {| pic_origin := (1, 0); pic_size := (2, 1); pic_blocks := [[2; 2]]; pic_compressed := false |}])] |}.
Ltac closed_range := split; [vm_compute; discriminate|vm_compute; reflexivity].
Example C78_example : wf_drawing two_layers /\
  exists s, load rel64 (drawing_file two_layers) = Ok s /\
    render_frame rel64 inflate_zlib s 0 (repeat 0 8) SelVisible = Ok [100; 200; 10; 128; 134; 97; 25; 228] /\
    render_frame rel64 inflate_zlib s 0 (repeat 0 8) (SelMask [true; false]) = Ok [100; 200; 10; 128; 200; 100; 50; 200].
Proof.
  split.
  - unfold wf_drawing, wf_sprite_layer, wf_picture, Encode.wf_string, storable, wf_colours, Encode.wf_color.
    repeat first [split; [closed_range..] | apply conj | apply Forall_cons | apply Forall_nil
                 | apply from_utf8_valid; reflexivity | now left | discriminate | closed_range | exact I
                 | reflexivity | vm_compute; discriminate].
  - eexists. split; [vm_compute; reflexivity|]. split; vm_compute; reflexivity.
Qed.
