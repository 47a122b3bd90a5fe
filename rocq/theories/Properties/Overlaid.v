(** One sprite above another (C136). *)
From Verif.Model Require Import Loader.
From Verif.Spec Require Import Bytes Format Encode FileSpec LoaderSpec RenderSpec Published Edits Overlaid.
From Verif.Proofs Require Import OverlaidProps.
From Verif.Tests Require Import Configs Build.

(** ** C136 *)
(** Two sprites of the same size and colour depth, with the same palette and
    number of frames, can be laid over each other: the layers and cels of the
    second are added to the frames of the first, and its layer indexes move
    along.  A frame of the result is a frame of the first sprite on which a
    frame of the second is rendered.  All layers of the first sprite must be in
    its first frame, and the loader must drop none of them. *)
Theorem C136_overlaid : forall c i i2 raw raw2 s s2, cfg_ok c -> is_bytes i -> addressable c i -> is_bytes i2 -> addressable c i2 ->
  parse_raw_file c i = Ok raw -> no_map_error raw -> load c i = Ok s ->
  parse_raw_file c i2 = Ok raw2 -> no_map_error raw2 -> load c i2 = Ok s2 ->
  api_size s = api_size s2 -> h_color_depth (f_header (af_file s)) = h_color_depth (f_header (af_file s2)) -> f_palette (af_file s) = f_palette (af_file s2) ->
  length (api_frames s) = length (api_frames s2) -> layers_first raw -> length (api_layers s) = length (f_layers (af_file s)) ->
  layer_count raw + layer_count raw2 <= 65536 -> Forall (fun fr => zlen (enc_raw_frame fr) < 2 ^ 32) (rw_frames (overlaid raw raw2)) ->
  addressable c (enc_file (overlaid raw raw2)) ->
  exists s', load c (enc_file (overlaid raw raw2)) = Ok s' /\ api_size s' = api_size s /\ api_layers s' = api_layers s ++ api_layers s2 /\
    api_tags s' = api_tags s /\ api_slices s' = api_slices s /\ length (api_frames s') = length (api_frames s) /\
    forall k sf, nth_error (api_frames s) k = Some sf -> exists sf', nth_error (api_frames s') k = Some sf' /\ sf_duration sf' = sf_duration sf /\
      forall inflate target sel sel2 sel', chooses_both (api_layers s) (api_layers s2) sel sel2 sel' ->
      render_frame c inflate s' (Z.of_nat k) target sel' =
      match render_frame c inflate s (Z.of_nat k) target sel with
      | Ok r => render_frame c inflate s2 (Z.of_nat k) r sel2
      | Err e => Err e
      | Panic p => Panic p
      end.
Proof. exact lies_over. Qed.
Print Assumptions C136_overlaid.

(** Selections that can be put together *)
Theorem C136_selections : forall a b, chooses_both a b SelAll SelAll SelAll /\ chooses_both a b SelVisible SelVisible SelVisible /\
  forall mask mask2, length mask = length a -> chooses_both a b (SelMask mask) (SelMask mask2) (SelMask (mask ++ mask2)).
Proof. exact both_ways. Qed.
Print Assumptions C136_selections.

(** The upper sprite has a multiplying layer, a link and a hidden layer. *)
Definition lower : bytes :=
  hdr 2 32 2 1 ++
  frm [layer_ch 1 0 0 255 [97]; layer_ch 0 0 0 255 [98]; raw_cel_ch 0 0 0 255 2 1 [100; 200; 50; 255; 10; 20; 30; 255]] ++
  frm [linked_cel_ch 0 1 0 0; raw_cel_ch 1 0 0 255 1 1 [1; 2; 3; 255]].
Definition upper : bytes :=
  hdr 2 32 2 1 ++
  frm [layer_ch 1 0 1 255 [99]; raw_cel_ch 0 0 0 255 1 1 [128; 128; 128; 255]] ++
  frm [layer_ch 0 0 0 255 [100]; linked_cel_ch 0 1 0 0; raw_cel_ch 1 0 0 255 1 1 [9; 9; 9; 255]].
Definition no_inflate : inflater := fun _ _ => (ZError, []).
Definition twice (s s2 : ase_file) (k : Z) (sel sel2 : layer_selection) : buf_out :=
  bind (render_frame dbg64 no_inflate s k (repeat 0 8) sel) (fun r => render_frame dbg64 no_inflate s2 k r sel2).
Example C136_example : exists raw raw2 s s2 s', parse_raw_file dbg64 lower = Ok raw /\ parse_raw_file dbg64 upper = Ok raw2 /\
  load dbg64 lower = Ok s /\ load dbg64 upper = Ok s2 /\
  no_map_error raw /\ no_map_error raw2 /\ layers_first raw /\ ~ layers_first raw2 /\
  api_size s = api_size s2 /\ h_color_depth (f_header (af_file s)) = h_color_depth (f_header (af_file s2)) /\
  f_palette (af_file s) = f_palette (af_file s2) /\ length (api_frames s) = length (api_frames s2) /\
  length (api_layers s) = length (f_layers (af_file s)) /\
  load dbg64 (enc_file (overlaid raw raw2)) = Ok s' /\ api_layers s' = api_layers s ++ api_layers s2 /\
  map (fun k => render_frame dbg64 no_inflate s' k (repeat 0 8) SelAll) [0; 1] = map (fun k => twice s s2 k SelAll SelAll) [0; 1] /\
  map (fun k => render_frame dbg64 no_inflate s' k (repeat 0 8) SelVisible) [0; 1] =
    [Ok [50; 100; 25; 255; 10; 20; 30; 255]; Ok [0; 0; 0; 0; 50; 100; 25; 255]] /\
  render_frame dbg64 no_inflate s' 1 (repeat 0 8) (SelMask [true; true; false; false]) = Ok [1; 2; 3; 255; 100; 200; 50; 255] /\
  render_frame dbg64 no_inflate s' 1 (repeat 0 8) (SelMask [false; true; true; true]) = Ok [9; 9; 9; 255; 128; 128; 128; 255].
Proof.
  destruct (parse_raw_file dbg64 lower) as [raw| |] eqn:R; [|vm_compute in R; discriminate..]. vm_compute in R. injection R as <-.
  destruct (parse_raw_file dbg64 upper) as [raw2| |] eqn:R; [|vm_compute in R; discriminate..]. vm_compute in R. injection R as <-.
  do 5 eexists. split; [reflexivity|]. split; [reflexivity|]. split; [vm_compute; reflexivity|]. split; [vm_compute; reflexivity|].
  split; [intros fr u e H; cbn in H; repeat destruct H as [<-|H]; try destruct H; cbn; intuition discriminate|].
  split; [intros fr u e H; cbn in H; repeat destruct H as [<-|H]; try destruct H; cbn; intuition discriminate|].
  split; [intros [|[|k]] fr l H; cbn in H; try discriminate; injection H as <-; cbn; intuition discriminate|].
  split; [intro H; eapply (H O); [reflexivity|left; reflexivity]|].
  split; [reflexivity|]. split; [reflexivity|]. split; [reflexivity|]. split; [reflexivity|]. split; [reflexivity|].
  split; [vm_compute; reflexivity|]. split; [vm_compute; reflexivity|]. split; [vm_compute; reflexivity|]. split; [vm_compute; reflexivity|].
  split; vm_compute; reflexivity.
Qed.

(** With a layer of the lower sprite in its second frame, the layers get mixed:
    its second layer is above those of the other sprite. *)
Example C136_needed : exists raw raw2 s', parse_raw_file dbg64 upper = Ok raw /\ parse_raw_file dbg64 lower = Ok raw2 /\
  load dbg64 (enc_file (overlaid raw raw2)) = Ok s' /\
  map ly_name (api_layers s') = [[99]; [97]; [98]; [100]].
Proof.
  destruct (parse_raw_file dbg64 lower) as [raw| |] eqn:R; [|vm_compute in R; discriminate..]. vm_compute in R. injection R as <-.
  destruct (parse_raw_file dbg64 upper) as [raw2| |] eqn:R; [|vm_compute in R; discriminate..]. vm_compute in R. injection R as <-.
  do 3 eexists. split; [reflexivity|]. split; [reflexivity|]. split; vm_compute; reflexivity.
Qed.
