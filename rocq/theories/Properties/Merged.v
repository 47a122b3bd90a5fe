(** Layers merged into one (C123). *)
From Verif.Model Require Import Loader.
From Verif.Spec Require Import Bytes ImageSpec RenderSpec Made Merged.
From Verif.Proofs Require Import MergeProps.
From Verif.Tests Require Import Configs Build.

(** ** C123 *)
(** The lower layers can be replaced by one layer of the pictures they give on an
    empty canvas: all frames remain what they were there, failures included. *)
Theorem C123_merged : forall c inflate, cfg_ok c -> inflate_ok inflate ->
  forall s, typed c s -> made_fits c s -> h_color_depth (f_header (af_file s)) = Rgba ->
  canvas_size s * 4 < 2 ^ usize_bits c -> in_order s ->
  forall n sel below, 0 <= n -> lower_selection s n sel below ->
  forall pictures, (forall k, (k < length (api_frames s))%nat ->
    exists r, nth_error pictures k = Some r /\ render_frame c inflate s (Z.of_nat k) (blank s) below = Ok r) ->
  forall k, render_frame c inflate (merged n s pictures) (Z.of_nat k) (blank s) (merged_selection n sel) =
    render_frame c inflate s (Z.of_nat k) (blank s) sel.
Proof. exact merged_sprite. Qed.
Print Assumptions C123_merged.

(** The cels of loaded sprites are in order (for the other conditions see C101). *)
Theorem C123_loaded : forall c i s, cfg_ok c -> is_bytes i -> addressable c i -> load c i = Ok s -> in_order s.
Proof. exact loaded_in_order. Qed.
Print Assumptions C123_loaded.

(** Three layers: normal, multiply and (half transparent) screen; the third is
    also in the second frame, alone. *)
Definition three : bytes :=
  hdr 2 32 2 1 ++ frm [layer_ch 1 0 0 255 [97]; layer_ch 1 0 1 200 [98]; layer_ch 1 0 2 128 [99];
    raw_cel_ch 0 0 0 255 2 1 [10; 20; 30; 255; 40; 50; 60; 128]; raw_cel_ch 1 1 0 255 1 1 [200; 100; 0; 255];
    raw_cel_ch 2 0 0 255 2 1 [9; 90; 190; 255; 70; 80; 90; 100]] ++
  frm [raw_cel_ch 2 1 0 255 1 1 [1; 2; 3; 4]].
Definition no_inflate : inflater := fun _ _ => (ZError, []).
Definition sprite : option ase_file := Eval vm_compute in match load dbg64 three with Ok s => Some s | _ => None end.
Definition lower : layer_selection := SelMask [true; true; false].
Definition first_two : list bytes := Eval vm_compute in
  match sprite with
  | Some s => flat_map (fun k => match render_frame dbg64 no_inflate s k (blank s) lower with Ok r => [r] | _ => [] end) [0; 1]
  | None => []
  end.
Example C123_example : exists s, load dbg64 three = Ok s /\ lower_selection s 2 SelVisible lower /\
  first_two = [[10; 20; 30; 255; 77; 45; 8; 228]; [0; 0; 0; 0; 0; 0; 0; 0]] /\
  (forall k, (k < length (api_frames s))%nat ->
    exists r, nth_error first_two k = Some r /\ render_frame dbg64 no_inflate s (Z.of_nat k) (blank s) lower = Ok r) /\
  length (af_layers (merged 2 s first_two)) = 2%nat /\
  render_frame dbg64 no_inflate s 0 (blank s) SelVisible = Ok [14; 61; 114; 255; 86; 58; 26; 233] /\
  render_frame dbg64 no_inflate (merged 2 s first_two) 0 (blank s) SelVisible = Ok [14; 61; 114; 255; 86; 58; 26; 233].
Proof.
  eexists. split; [vm_compute; reflexivity|]. split.
  { intros [|[|[|j]]] l E; try (injection E as <-; reflexivity). now destruct j. }
  split; [vm_compute; reflexivity|]. split.
  { intros [|[|k]] H; [eexists; split; [reflexivity|vm_compute; reflexivity]..|]. vm_compute in H. lia. }
  split; [reflexivity|]. split; vm_compute; reflexivity.
Qed.

(** On other canvases this may be wrong: over white, the multiplied picture
    differs. *)
Example C123_needed : exists s, load dbg64 three = Ok s /\
  exists r r', render_frame dbg64 no_inflate s 0 (repeat 255 8) SelVisible = Ok r /\
    render_frame dbg64 no_inflate (merged 2 s first_two) 0 (repeat 255 8) SelVisible = Ok r' /\ r <> r'.
Proof.
  eexists. split; [vm_compute; reflexivity|]. do 2 eexists. split; [vm_compute; reflexivity|].
  split; [vm_compute; reflexivity|discriminate].
Qed.
