(** Properties of [AsepriteFile::render_frame] and the layer selections
    (C35-C42, C52, C56). *)
From Verif.Model Require Import Loader.
From Verif.Spec Require Import Bytes ImageSpec BlendSpec RenderSpec.
From Verif.Proofs Require Import RenderProps.
From Verif.Tests Require Import Configs Build.

(** ** C35 *)
Theorem C35_pixels : forall c i s, cfg_ok c -> is_bytes i -> addressable c i -> load c i = Ok s ->
  forall inflate, inflate_ok inflate -> sprite_fits c s ->
  forall sel k sf target r, nth_error (api_frames s) k = Some sf -> is_bytes target ->
  render_frame c inflate s (Z.of_nat k) target sel = Ok r ->
  forall x y, 0 <= x < canvas_width s -> 0 <= y < canvas_height s ->
  exists back p, pixel (canvas_width s) target x y = Some back /\ pixel (canvas_width s) r x y = Some p /\
    composed c inflate s sel x y (sf_cels sf) back p.
Proof. exact render_composes. Qed.
Print Assumptions C35_pixels.

(** There is only one such pixel. *)
Theorem C35_determined : forall c inflate s sel x y cels back p q,
  composed c inflate s sel x y cels back p -> composed c inflate s sel x y cels back q -> p = q.
Proof. exact composed_unique. Qed.
Print Assumptions C35_determined.

(** All sizes fit on 64 bit targets. *)
Theorem C35_64_bit : forall c i s, cfg_ok c -> is_bytes i -> addressable c i -> load c i = Ok s ->
  usize_bits c = 64 -> sprite_fits c s.
Proof. exact wide_fits. Qed.
Print Assumptions C35_64_bit.

Definition no_inflate : inflater := fun _ _ => (ZError, []).

(** A 2 x 2 canvas: an opaque background, a multiply layer of opacity 128 whose
    2 x 2 cel hangs over the upper left corner, and a cel left of the canvas. *)
Definition overlap_file : bytes :=
  hdr 1 32 2 2 ++
  frm [layer_ch 1 0 0 255 [97]; layer_ch 1 0 1 128 [98]; layer_ch 1 0 0 255 [99];
       raw_cel_ch 0 0 0 255 2 2 [10; 20; 30; 255; 40; 50; 60; 255; 70; 80; 90; 255; 100; 110; 120; 255];
       raw_cel_ch 1 (-1) (-1) 255 2 2 [1; 1; 1; 255; 2; 2; 2; 255; 3; 3; 3; 255; 0; 128; 255; 255];
       raw_cel_ch 2 (-1) 0 255 1 1 [1; 1; 1; 255]].
Example C35_example : exists s, load dbg64 overlap_file = Ok s /\
  render_frame dbg64 no_inflate s 0 (repeat 7 17) SelAll =
    Ok [5; 15; 30; 255; 40; 50; 60; 255; 70; 80; 90; 255; 100; 110; 120; 255; 7].
Proof. eexists. split; [vm_compute; reflexivity|vm_compute; reflexivity]. Qed.

(** ** C36 *)
Theorem C36_too_small : forall c i s, cfg_ok c -> is_bytes i -> addressable c i -> load c i = Ok s ->
  sprite_fits c s -> forall inflate sel k target, zlen target < canvas_size s ->
  render_frame c inflate s k target sel = Err (TargetBufferTooSmall, target).
Proof. exact render_too_small. Qed.
Print Assumptions C36_too_small.

Theorem C36_buffer : forall c i s, cfg_ok c -> is_bytes i -> addressable c i -> load c i = Ok s ->
  forall inflate, inflate_ok inflate -> sprite_fits c s ->
  forall sel k sf target, nth_error (api_frames s) k = Some sf -> is_bytes target -> canvas_size s <= zlen target ->
  match render_frame c inflate s (Z.of_nat k) target sel with
  | Ok r => zlen r = zlen target /\ is_bytes r /\
      skipn (Z.to_nat (canvas_size s)) r = skipn (Z.to_nat (canvas_size s)) target
  | Err _ => False
  | Panic q => q <> PIndex
  end.
Proof. exact render_buffer. Qed.
Print Assumptions C36_buffer.

Example C36_example : exists s, load dbg64 overlap_file = Ok s /\
  render_frame dbg64 no_inflate s 0 (repeat 7 15) SelAll = Err (TargetBufferTooSmall, repeat 7 15).
Proof. eexists. split; [vm_compute; reflexivity|vm_compute; reflexivity]. Qed.

(** ** C37 *)
(** Refuted, in four ways: uncompressed RGBA data of the wrong length, ... *)
Theorem C37_wrong_length_refuted : forall c inflate, cfg_ok c ->
  exists i s, is_bytes i /\ addressable c i /\ load c i = Ok s /\ zlen (api_frames s) = 1 /\
    render_frame c inflate s 0 [0; 0; 0; 0] SelAll = Panic PCopyLen.
Proof. exact render_wrong_length. Qed.
Print Assumptions C37_wrong_length_refuted.

(** ... any image that [load_image] rejects, ... *)
Theorem C37_unwrap_refuted : forall c inflate, cfg_ok c ->
  exists i s e, is_bytes i /\ addressable c i /\ load c i = Ok s /\ zlen (api_frames s) = 1 /\
    load_image c inflate s 0 [0; 0; 0; 0] = Err e /\
    render_frame c inflate s 0 [0; 0; 0; 0] SelAll = Panic PUnwrap.
Proof. exact render_unwraps. Qed.
Print Assumptions C37_unwrap_refuted.

(** ... an unknown blend mode, ... *)
Theorem C37_unknown_mode_refuted : forall c inflate, cfg_ok c ->
  exists i s, is_bytes i /\ addressable c i /\ load c i = Ok s /\ zlen (api_frames s) = 1 /\
    load_image c inflate s 0 [0; 0; 0; 0] = Ok [1; 2; 3; 4] /\
    render_frame c inflate s 0 [0; 0; 0; 0] SelAll = Panic PExplicit.
Proof. exact render_odd_mode. Qed.
Print Assumptions C37_unknown_mode_refuted.

(** ... and, in debug builds, the hue mode. *)
Theorem C37_hue_refuted : forall c inflate, cfg_ok c -> debug c = true ->
  exists i s, is_bytes i /\ addressable c i /\ load c i = Ok s /\ zlen (api_frames s) = 1 /\
    load_image c inflate s 0 [0; 0; 0; 0] = Ok [1; 2; 3; 4] /\
    render_frame c inflate s 0 [9; 9; 9; 255] SelAll = Panic PDebugAssert.
Proof. exact render_hue. Qed.
Print Assumptions C37_hue_refuted.

(** There are no other panics, ... *)
Theorem C37_panics_partial : forall c i s, cfg_ok c -> is_bytes i -> addressable c i -> load c i = Ok s ->
  forall inflate, inflate_ok inflate -> sprite_fits c s ->
  forall sel k sf target q, nth_error (api_frames s) k = Some sf -> is_bytes target ->
  render_frame c inflate s (Z.of_nat k) target sel = Panic q ->
  exists cel l, In cel (sf_cels sf) /\ drawn s sel cel = Some l /\
    ((q = PCopyLen /\ h_color_depth (f_header (af_file s)) = Rgba /\
        exists im, nth_error (af_images s) (Z.to_nat (fc_image_index cel)) = Some im /\
          im_compressed im = false /\ zlen (im_data im) <> rgba_size im) \/
     (q = PUnwrap /\ forall image, ~ cel_image inflate s cel image) \/
     (q = PExplicit /\ ~ known_mode (ly_blend_mode l)) \/
     (q = PDebugAssert /\ debug c = true /\ hsl (ly_blend_mode l))).
Proof. exact render_panics. Qed.
Print Assumptions C37_panics_partial.

(** ... so these are the frames that can be rendered.  (In release builds the
    two conditions are the same.) *)
Theorem C37_success_partial : forall c i s, cfg_ok c -> is_bytes i -> addressable c i -> load c i = Ok s ->
  forall inflate, inflate_ok inflate -> sprite_fits c s ->
  forall sel k sf target, nth_error (api_frames s) k = Some sf -> is_bytes target -> canvas_size s <= zlen target ->
  ((exists r, render_frame c inflate s (Z.of_nat k) target sel = Ok r) ->
   forall cel l, In cel (sf_cels sf) -> drawn s sel cel = Some l ->
     (exists image, cel_image inflate s cel image) /\ known_mode (ly_blend_mode l)) /\
  ((forall cel l, In cel (sf_cels sf) -> drawn s sel cel = Some l ->
     (exists image, cel_image inflate s cel image) /\ known_mode (ly_blend_mode l) /\
     (debug c = true -> separable (ly_blend_mode l))) ->
   exists r, render_frame c inflate s (Z.of_nat k) target sel = Ok r).
Proof. exact render_succeeds. Qed.
Print Assumptions C37_success_partial.

(** A frame index past the end. *)
Theorem C37_no_such_frame : forall c i s, cfg_ok c -> is_bytes i -> addressable c i -> load c i = Ok s ->
  sprite_fits c s ->
  forall inflate sel k target, nth_error (api_frames s) k = None -> canvas_size s <= zlen target ->
  render_frame c inflate s (Z.of_nat k) target sel = Panic PIndex.
Proof. exact bad_frame. Qed.
Print Assumptions C37_no_such_frame.

(** ** C38 *)
(** Which cels [select_layers(p)] draws; C35 says how. *)
Theorem C38_predicate : forall s p cel,
  drawn s (select_layers s p) cel =
  match nth_error (api_layers s) (Z.to_nat (fc_layer_index cel)) with
  | Some l => match ly_layer_type l with LGroup => None | _ => if p l then Some l else None end
  | None => None
  end.
Proof. exact drawn_select. Qed.
Print Assumptions C38_predicate.

(** Selections that choose the same layers draw the same. *)
Theorem C38_same_layers : forall c inflate s sel p,
  (forall k l, nth_error (api_layers s) k = Some l -> ly_layer_type l <> LGroup ->
     chosen sel (Z.of_nat k) l = p l) ->
  forall k t, render_frame c inflate s k t sel = render_frame c inflate s k t (select_layers s p).
Proof. exact select_same. Qed.
Print Assumptions C38_same_layers.

Theorem C38_visible : forall c inflate s k t,
  render_frame c inflate s k t SelVisible = render_frame c inflate s k t (select_layers s ly_visible).
Proof. exact select_visible. Qed.
Print Assumptions C38_visible.

Theorem C38_all : forall c inflate s k t,
  render_frame c inflate s k t SelAll = render_frame c inflate s k t (select_layers s (fun _ => true)).
Proof. exact select_all. Qed.
Print Assumptions C38_all.

Theorem C38_short_mask : forall c inflate s k t mask n,
  render_frame c inflate s k t (SelMask (mask ++ repeat false n)) = render_frame c inflate s k t (SelMask mask).
Proof. exact mask_padding. Qed.
Print Assumptions C38_short_mask.

Theorem C38_by_name : forall s names cel l,
  drawn s (select_layers_by_name s names) cel = Some l <->
  nth_error (api_layers s) (Z.to_nat (fc_layer_index cel)) = Some l /\ ly_layer_type l <> LGroup /\
  In (ly_name l) names.
Proof. exact drawn_by_name. Qed.
Print Assumptions C38_by_name.

Theorem C38_nothing : forall c i s, cfg_ok c -> is_bytes i -> addressable c i -> load c i = Ok s ->
  forall inflate, sprite_fits c s ->
  forall sel k sf target, nth_error (api_frames s) k = Some sf -> canvas_size s <= zlen target ->
  (forall n l, nth_error (api_layers s) n = Some l -> ly_layer_type l <> LGroup -> chosen sel (Z.of_nat n) l = false) ->
  render_frame c inflate s (Z.of_nat k) target sel = Ok target.
Proof. exact nothing_selected. Qed.
Print Assumptions C38_nothing.

Example C38_example : exists s, load dbg64 overlap_file = Ok s /\
  render_frame dbg64 no_inflate s 0 (repeat 0 16) (select_layers_by_name s [[98]; [120]]) =
    Ok ([0; 128; 255; 128] ++ repeat 0 12) /\
  render_frame dbg64 no_inflate s 0 (repeat 0 16) (SelMask [false; true]) =
    Ok ([0; 128; 255; 128] ++ repeat 0 12).
Proof. eexists. split; [vm_compute; reflexivity|]. split; vm_compute; reflexivity. Qed.

(** ** C39 *)
(** Nothing that is not drawn has any influence: not the other cels, nor their
    images, nor the other layers, frames, tags, ... *)
Theorem C39_only_drawn : forall c i s i' s', cfg_ok c -> is_bytes i -> addressable c i -> load c i = Ok s ->
  is_bytes i' -> addressable c i' -> load c i' = Ok s' ->
  same_canvas s s' -> f_palette (af_file s) = f_palette (af_file s') ->
  forall sel sel' k sf k' sf', nth_error (api_frames s) k = Some sf -> nth_error (api_frames s') k' = Some sf' ->
  shown s sel (sf_cels sf) = shown s' sel' (sf_cels sf') ->
  forall inflate target,
    render_frame c inflate s (Z.of_nat k) target sel = render_frame c inflate s' (Z.of_nat k') target sel'.
Proof. exact same_picture. Qed.
Print Assumptions C39_only_drawn.

Theorem C39_groups : forall s sel cel l,
  nth_error (api_layers s) (Z.to_nat (fc_layer_index cel)) = Some l -> ly_layer_type l = LGroup ->
  drawn s sel cel = None.
Proof. exact groups_not_drawn. Qed.
Print Assumptions C39_groups.

(** A cel of a group and one of an invisible layer, both with corrupt images. *)
Definition corrupt_file : bytes :=
  hdr 1 32 1 1 ++
  frm [layer_ch 1 1 0 255 [103]; layer_ch 0 0 0 255 [97]; layer_ch 1 0 0 255 [98];
       raw_cel_ch 0 0 0 255 1 1 [1]; raw_cel_ch 1 0 0 255 1 1 [1]; raw_cel_ch 2 0 0 255 1 1 [1; 2; 3; 255]].
Definition clean_file : bytes :=
  hdr 1 32 1 1 ++ frm [layer_ch 1 0 0 255 [98]; raw_cel_ch 0 0 0 255 1 1 [1; 2; 3; 255]].
Example C39_example : exists s s' sf sf', load dbg64 corrupt_file = Ok s /\ load dbg64 clean_file = Ok s' /\
  nth_error (api_frames s) 0 = Some sf /\ nth_error (api_frames s') 0 = Some sf' /\ zlen (sf_cels sf) = 3 /\
  same_canvas s s' /\ f_palette (af_file s) = f_palette (af_file s') /\
  shown s SelVisible (sf_cels sf) = shown s' SelAll (sf_cels sf') /\
  render_frame dbg64 no_inflate s 0 [0; 0; 0; 0] SelVisible = Ok [1; 2; 3; 255].
Proof.
  do 4 eexists. split; [vm_compute; reflexivity|]. split; [vm_compute; reflexivity|].
  split; [reflexivity|]. split; [reflexivity|]. repeat split; vm_compute; reflexivity.
Qed.

(** ** C40 *)
(** Refuted: a cel of opacity 0 is drawn, opaquely. *)
Theorem C40_ignored_refuted : forall c inflate, cfg_ok c ->
  exists i s x, is_bytes i /\ addressable c i /\ load c i = Ok s /\ zlen (api_frames s) = 1 /\
    map fr_cels (f_frames (af_file s)) = [[Some x]] /\ cc_opacity x = 0 /\
    render_frame c inflate s 0 [9; 9; 9; 255] SelAll = Ok [1; 2; 3; 255].
Proof. exact opacity_ignored. Qed.
Print Assumptions C40_ignored_refuted.

(** More than that: only position, layer and content of the cels have any effect
    (see [same_cel]). *)
Theorem C40_no_effect_refuted : forall c i s i' s', load c i = Ok s -> load c i' = Ok s' ->
  same_canvas s s' -> f_palette (af_file s) = f_palette (af_file s') ->
  f_layers (af_file s) = f_layers (af_file s') ->
  Forall2 same_slots (map fr_cels (f_frames (af_file s))) (map fr_cels (f_frames (af_file s'))) ->
  forall inflate k target sel, render_frame c inflate s k target sel = render_frame c inflate s' k target sel.
Proof. exact only_place_and_content. Qed.
Print Assumptions C40_no_effect_refuted.

(** ** C41 *)
Theorem C41_hidden_group_refuted : forall c inflate, cfg_ok c ->
  exists i s group child, is_bytes i /\ addressable c i /\ load c i = Ok s /\ zlen (api_frames s) = 1 /\
    f_layers (af_file s) = [group; child] /\ lc_layer_type group = LGroup /\
    lc_child_level group = 0 /\ lc_child_level child = 1 /\
    map ly_visible (api_layers s) = [false; true] /\
    render_frame c inflate s 0 [9; 9; 9; 255] SelVisible = Ok [1; 2; 3; 255].
Proof. exact hidden_group_drawn. Qed.
Print Assumptions C41_hidden_group_refuted.

(** More than that: nothing of a group has any effect, nor has the name, the
    child level or any flag but visible of a layer (see [drawn_alike]). *)
Theorem C41_no_effect_refuted : forall c i s i' s', load c i = Ok s -> load c i' = Ok s' ->
  same_canvas s s' -> f_palette (af_file s) = f_palette (af_file s') ->
  Forall2 drawn_alike (f_layers (af_file s)) (f_layers (af_file s')) ->
  Forall2 same_slots (map fr_cels (f_frames (af_file s))) (map fr_cels (f_frames (af_file s'))) ->
  forall inflate k target sel, render_frame c inflate s k target sel = render_frame c inflate s' k target sel.
Proof. exact only_drawn_layers. Qed.
Print Assumptions C41_no_effect_refuted.

(** A hidden group around a locked layer, and a visible, faint one with another
    name beside it. *)
Definition inside_file : bytes :=
  hdr 1 32 1 1 ++ frm [layer_ch_at 0 0 1 0 255 [103]; layer_ch_at 1 1 0 0 255 [97]; raw_cel_ch 1 0 0 255 1 1 [1; 2; 3; 255]].
Definition beside_file : bytes :=
  hdr 1 32 1 1 ++ frm [layer_ch_at 0 1 1 4 7 [104; 104]; layer_ch_at 0 3 0 0 255 []; raw_cel_ch 1 0 0 0 1 1 [1; 2; 3; 255]].
Example C41_no_effect_example : exists s s', load dbg64 inside_file = Ok s /\ load dbg64 beside_file = Ok s' /\
  same_canvas s s' /\ Forall2 drawn_alike (f_layers (af_file s)) (f_layers (af_file s')) /\
  Forall2 same_slots (map fr_cels (f_frames (af_file s))) (map fr_cels (f_frames (af_file s'))) /\
  api_layers s <> api_layers s' /\
  render_frame dbg64 (fun _ _ => (ZError, [])) s 0 [9; 9; 9; 255] SelVisible = Ok [1; 2; 3; 255].
Proof.
  do 2 eexists. split; [vm_compute; reflexivity|]. split; [vm_compute; reflexivity|].
  split; [repeat split|]. split; [cbn; repeat apply Forall2_cons; try apply Forall2_nil; (split; [reflexivity|]; cbn; intros; try discriminate; repeat split)|].
  split; [cbn; repeat constructor|].
  split; [discriminate|vm_compute; reflexivity].
Qed.

(** ** C42 *)
(** The hash is a function of the cels, and tells apart whatever the hasher does. *)
Theorem C42_combined : forall hasher, exists hash : list frame_cel -> Z,
  (forall c inflate s k sf target, nth_error (api_frames s) k = Some sf ->
   combined_frame_image c inflate hasher s (Z.of_nat k) target =
   match render_frame c inflate s (Z.of_nat k) target SelVisible with
   | Ok r => Ok (r, hash (sf_cels sf))
   | Err e => Err e
   | Panic q => Panic q
   end) /\
  ((forall a b, hasher a = hasher b -> a = b) -> forall a b, hash a = hash b -> a = b).
Proof. exact combined_eq. Qed.
Print Assumptions C42_combined.

Theorem C42_same_cels : forall c inflate hasher s k k' sf sf' target,
  nth_error (api_frames s) k = Some sf -> nth_error (api_frames s) k' = Some sf' -> sf_cels sf = sf_cels sf' ->
  combined_frame_image c inflate hasher s (Z.of_nat k) target =
  combined_frame_image c inflate hasher s (Z.of_nat k') target.
Proof. exact combined_same_cels. Qed.
Print Assumptions C42_same_cels.

(** Frame 1 links to the cel of frame 0. *)
Definition linked_file : bytes :=
  hdr 2 32 1 1 ++ frm [layer_ch 1 0 0 255 [97]; raw_cel_ch 0 0 0 255 1 1 [1; 2; 3; 4]] ++ frm [linked_cel_ch 0 0 0 0].
Example C42_example : exists s sf sf', load dbg64 linked_file = Ok s /\ api_frames s = [sf; sf'] /\
  sf_cels sf = sf_cels sf' /\ zlen (sf_cels sf) = 1 /\
  combined_frame_image dbg64 no_inflate zlen s 1 [0; 0; 0; 0] = Ok ([1; 2; 3; 4], 6).
Proof.
  do 3 eexists. split; [vm_compute; reflexivity|]. split; [reflexivity|]. repeat split; vm_compute; reflexivity.
Qed.

(** ** C52, the part about rendering; see Properties/Image.v *)
Theorem C52_canvas_test_partial : forall c i s, cfg_ok c -> is_bytes i -> addressable c i -> load c i = Ok s ->
  forall inflate, inflate_ok inflate -> sprite_fits c s ->
  forall sel k sf target, nth_error (api_frames s) k = Some sf -> is_bytes target ->
  (exists t, render_frame c inflate s (Z.of_nat k) target sel = Err (TargetBufferTooSmall, t)) <->
  zlen target < canvas_width s * canvas_height s * 4.
Proof. exact canvas_test. Qed.
Print Assumptions C52_canvas_test_partial.

(** ** C56 *)
(** Refuted: the lower layer's cel has the greater z-index but stays below;
    by C40_no_effect_refuted the z-index never matters. *)
Theorem C56_ignored_refuted : forall c inflate, cfg_ok c ->
  exists i s x y, is_bytes i /\ addressable c i /\ load c i = Ok s /\ zlen (api_frames s) = 1 /\
    map fr_cels (f_frames (af_file s)) = [[Some x; Some y]] /\ cc_z_index x = 5 /\ cc_z_index y = 0 /\
    load_image c inflate s 0 [0; 0; 0; 0] = Ok [1; 2; 3; 255] /\
    load_image c inflate s 1 [0; 0; 0; 0] = Ok [4; 5; 6; 255] /\
    render_frame c inflate s 0 [9; 9; 9; 255] SelAll = Ok [4; 5; 6; 255].
Proof. exact z_ignored. Qed.
Print Assumptions C56_ignored_refuted.
