(** One animation after another (C133). *)
From Verif.Model Require Import Loader.
From Verif.Spec Require Import Bytes Format Encode FileSpec LoaderSpec RenderSpec Published Edits Joined.
From Verif.Proofs Require Import JoinedProps.
From Verif.Tests Require Import Configs Build.

(** ** C133 *)
(** Two sprites of the same size and colour depth, with the same layers and
    palette, can be joined: the frames of the first are followed by the cels of
    the second, whose links move along.  Layers that the loader drops count
    too, hence the condition about [f_layers]. *)
Theorem C133_joined : forall c i i2 raw raw2 s s2, cfg_ok c -> is_bytes i -> addressable c i -> is_bytes i2 -> addressable c i2 ->
  parse_raw_file c i = Ok raw -> no_map_error raw -> load c i = Ok s ->
  parse_raw_file c i2 = Ok raw2 -> no_map_error raw2 -> load c i2 = Ok s2 ->
  api_size s = api_size s2 -> h_color_depth (f_header (af_file s)) = h_color_depth (f_header (af_file s2)) -> f_palette (af_file s) = f_palette (af_file s2) ->
  api_layers s = api_layers s2 -> length (f_layers (af_file s)) = length (f_layers (af_file s2)) ->
  zlen (rw_frames raw) + zlen (rw_frames raw2) <= 65536 -> addressable c (enc_file (joined raw raw2)) ->
  exists s', load c (enc_file (joined raw raw2)) = Ok s' /\ api_size s' = api_size s /\ api_layers s' = api_layers s /\
    api_tags s' = api_tags s /\ api_slices s' = api_slices s /\
    length (api_frames s') = (length (api_frames s) + length (api_frames s2))%nat /\
    (forall k sf, nth_error (api_frames s) k = Some sf -> exists sf', nth_error (api_frames s') k = Some sf' /\ sf_duration sf' = sf_duration sf /\
       forall inflate target sel, render_frame c inflate s' (Z.of_nat k) target sel = render_frame c inflate s (Z.of_nat k) target sel) /\
    (forall k sf, nth_error (api_frames s2) k = Some sf -> exists sf', nth_error (api_frames s') (length (api_frames s) + k) = Some sf' /\
       sf_duration sf' = sf_duration sf /\
       forall inflate target sel, render_frame c inflate s' (Z.of_nat (length (api_frames s) + k)) target sel = render_frame c inflate s2 (Z.of_nat k) target sel).
Proof. exact plays_joined. Qed.
Print Assumptions C133_joined.

(** The second file has its layers in other places. *)
Definition one : bytes :=
  hdr 2 32 2 1 ++
  frm [layer_ch 1 0 0 255 [97]; layer_ch 1 0 0 255 [98]; raw_cel_ch 0 0 0 255 1 1 [1; 2; 3; 4]] ++
  frm [linked_cel_ch 0 1 0 0; raw_cel_ch 1 (-1) 0 255 2 1 [0; 0; 0; 0; 5; 6; 7; 255]].
Definition other : bytes :=
  hdr 2 32 2 1 ++
  frm [raw_cel_ch 1 0 0 255 1 1 [9; 8; 7; 255]; layer_ch 1 0 0 255 [97]] ++
  frm [linked_cel_ch 1 1 0 0; layer_ch 1 0 0 255 [98]].
Definition no_inflate : inflater := fun _ _ => (ZError, []).
Example C133_example : exists raw raw2 s s2 s', parse_raw_file dbg64 one = Ok raw /\ parse_raw_file dbg64 other = Ok raw2 /\
  load dbg64 one = Ok s /\ load dbg64 other = Ok s2 /\
  no_map_error raw /\ no_map_error raw2 /\
  api_size s = api_size s2 /\ h_color_depth (f_header (af_file s)) = h_color_depth (f_header (af_file s2)) /\
  f_palette (af_file s) = f_palette (af_file s2) /\ api_layers s = api_layers s2 /\
  length (f_layers (af_file s)) = length (f_layers (af_file s2)) /\
  parse_raw_file dbg64 (one ++ frm [raw_cel_ch 1 0 0 255 1 1 [9; 8; 7; 255]] ++ frm [linked_cel_ch 1 1 0 2]) = Ok (joined raw raw2) /\
  load dbg64 (enc_file (joined raw raw2)) = Ok s' /\
  map (fun k => render_frame dbg64 no_inflate s k (repeat 0 8) SelAll) [0; 1] =
    [Ok [1; 2; 3; 4; 0; 0; 0; 0]; Ok [5; 6; 7; 255; 1; 2; 3; 4]] /\
  map (fun k => render_frame dbg64 no_inflate s2 k (repeat 0 8) SelAll) [0; 1] =
    [Ok [9; 8; 7; 255; 0; 0; 0; 0]; Ok [0; 0; 0; 0; 9; 8; 7; 255]] /\
  map (fun k => render_frame dbg64 no_inflate s' k (repeat 0 8) SelAll) [0; 1; 2; 3] =
    [Ok [1; 2; 3; 4; 0; 0; 0; 0]; Ok [5; 6; 7; 255; 1; 2; 3; 4]; Ok [9; 8; 7; 255; 0; 0; 0; 0]; Ok [0; 0; 0; 0; 9; 8; 7; 255]].
Proof.
  destruct (parse_raw_file dbg64 one) as [raw| |] eqn:R; [|vm_compute in R; discriminate..]. vm_compute in R. injection R as <-.
  destruct (parse_raw_file dbg64 other) as [raw2| |] eqn:R; [|vm_compute in R; discriminate..]. vm_compute in R. injection R as <-.
  do 5 eexists. split; [reflexivity|]. split; [reflexivity|]. split; [vm_compute; reflexivity|]. split; [vm_compute; reflexivity|].
  split; [intros fr u e H; cbn in H; repeat destruct H as [<-|H]; try destruct H; cbn; intuition discriminate|].
  split; [intros fr u e H; cbn in H; repeat destruct H as [<-|H]; try destruct H; cbn; intuition discriminate|].
  split; [reflexivity|]. split; [reflexivity|]. split; [reflexivity|]. split; [vm_compute; reflexivity|]. split; [reflexivity|]. split; [vm_compute; reflexivity|].
  split; [vm_compute; reflexivity|]. split; [vm_compute; reflexivity|]. split; vm_compute; reflexivity.
Qed.

(** Had the link not been moved, there would be no picture for it: the layer has
    none in frame 0. *)
Example C133_unmoved : load dbg64 (one ++ frm [raw_cel_ch 1 0 0 255 1 1 [9; 8; 7; 255]] ++ frm [linked_cel_ch 1 1 0 0]) = Err (LInvalidLinkedCel 3 1).
Proof. vm_compute. reflexivity. Qed.
