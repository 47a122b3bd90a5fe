(** A sprite made of the frames of another one (C128). *)
From Verif.Model Require Import Loader Hasher.
From Verif.Spec Require Import Bytes Format Encode FileSpec LoaderSpec Edits Published Taken.
From Verif.Proofs Require Import TakenProps BackwardsProps.
From Verif.Tests Require Import Configs Build.

(** ** C128 *)
(** Frames can be dropped, repeated and rearranged at will, if every cel keeps
    its place and still shows its image, be it its own or that of a link: the file
    loads, and every frame looks like the one it is taken from. *)
Theorem C128_taken : forall c i i' s f' src, cfg_ok c -> is_bytes i -> addressable c i -> is_bytes i' -> addressable c i' ->
  load c i = Ok s -> parse_file c i' = Ok f' ->
  same_picture_header (f_header (af_file s)) (f_header f') ->
  f_palette (af_file s) = f_palette f' -> f_layers (af_file s) = f_layers f' ->
  taken src (f_frames (af_file s)) (f_frames f') ->
  exists s', load c i' = Ok s' /\ af_file s' = f' /\ api_layers s' = api_layers s /\
    length (api_frames s') = length (f_frames f') /\
    forall j sf', nth_error (api_frames s') j = Some sf' -> exists sf, nth_error (api_frames s) (src j) = Some sf /\
      sf_duration sf' = sf_duration sf /\
      forall inflate target sel, render_frame c inflate s' (Z.of_nat j) target sel = render_frame c inflate s (Z.of_nat (src j)) target sel.
Proof. exact frames_taken. Qed.
Print Assumptions C128_taken.

(** The second frame, again, then the first.  The first link now leads to the
    last frame, and a picture has become a link. *)
Definition two : bytes :=
  hdr 2 32 2 1 ++
  frm [layer_ch 1 0 0 255 [97]; layer_ch 1 0 0 255 [98]; raw_cel_ch 0 0 0 255 1 1 [1; 2; 3; 4]; raw_cel_ch 1 0 0 255 1 1 [9; 9; 9; 9]] ++
  frm [linked_cel_ch 0 1 0 0; raw_cel_ch 1 (-1) 0 255 2 1 [0; 0; 0; 0; 5; 6; 7; 255]].
Definition three : bytes :=
  hdr 3 32 2 1 ++
  frm [linked_cel_ch 0 1 0 2; layer_ch 1 0 0 255 [97]; layer_ch 1 0 0 255 [98]; raw_cel_ch 1 (-1) 0 255 2 1 [0; 0; 0; 0; 5; 6; 7; 255]] ++
  frm [linked_cel_ch 0 1 0 2; linked_cel_ch 1 (-1) 0 0] ++
  frm [raw_cel_ch 0 0 0 255 1 1 [1; 2; 3; 4]; raw_cel_ch 1 0 0 255 1 1 [9; 9; 9; 9]].
Definition order (j : nat) : nat := match j with 0%nat | 1%nat => 1%nat | _ => 0%nat end.
Definition no_inflate : inflater := fun _ _ => (ZError, []).
(** The pictures are the same, the hashes are not: they also count images. *)
Example C128_example : exists s s', load dbg64 two = Ok s /\ load dbg64 three = Ok s' /\
  f_layers (af_file s) = f_layers (af_file s') /\ taken order (f_frames (af_file s)) (f_frames (af_file s')) /\
  map (fun k => render_frame dbg64 no_inflate s k (repeat 0 8) SelAll) [0; 1] =
    [Ok [6; 6; 7; 13; 0; 0; 0; 0]; Ok [5; 6; 7; 255; 1; 2; 3; 4]] /\
  map (fun k => render_frame dbg64 no_inflate s' k (repeat 0 8) SelAll) [0; 1; 2] =
    [Ok [5; 6; 7; 255; 1; 2; 3; 4]; Ok [5; 6; 7; 255; 1; 2; 3; 4]; Ok [6; 6; 7; 13; 0; 0; 0; 0]] /\
  exists t h h', combined_frame_image dbg64 no_inflate (default_hasher dbg64) s 1 (repeat 0 8) = Ok (t, h) /\
    combined_frame_image dbg64 no_inflate (default_hasher dbg64) s' 0 (repeat 0 8) = Ok (t, h') /\ h <> h'.
Proof.
  do 2 eexists. split; [vm_compute; reflexivity|]. split; [vm_compute; reflexivity|].
  split; [reflexivity|]. split.
  { intros [|[|[|[|j]]]] fr' H; try discriminate H; cbn [af_file f_frames nth_error] in H; injection H as <-; eexists;
      (split; [reflexivity|]); (split; [reflexivity|]); repeat constructor; eexists; (split;
      [first [left; reflexivity | right; eexists; split; [|split; reflexivity]; lia]..]). }
  split; [vm_compute; reflexivity|]. split; [vm_compute; reflexivity|].
  do 3 eexists. split; [vm_compute; reflexivity|]. split; [vm_compute; reflexivity|]. discriminate.
Qed.

(** Every animation whose layers and palettes are in one frame can be written
    backwards, with links to match; tags stay where they are. *)
Theorem C128_backwards : forall c i raw s, cfg_ok c -> is_bytes i -> addressable c i -> parse_raw_file c i = Ok raw -> no_map_error raw ->
  load c i = Ok s -> gathered raw -> zlen (rw_frames raw) <= 65536 ->
  zlen (enc_file (backwards raw)) = zlen (enc_file raw) /\
  exists s', load c (enc_file (backwards raw)) = Ok s' /\ f_header (af_file s') = f_header (af_file s) /\ api_layers s' = api_layers s /\
    length (api_frames s') = length (api_frames s) /\
    forall j sf', nth_error (api_frames s') j = Some sf' -> exists sf, nth_error (api_frames s) (length (api_frames s) - 1 - j) = Some sf /\
      sf_duration sf' = sf_duration sf /\
      forall inflate target sel, render_frame c inflate s' (Z.of_nat j) target sel =
        render_frame c inflate s (Z.of_nat (length (api_frames s) - 1 - j)) target sel.
Proof. exact plays_backwards. Qed.
Print Assumptions C128_backwards.

Example C128_two_backwards : exists raw s s', parse_raw_file dbg64 two = Ok raw /\ gathered raw /\ load dbg64 two = Ok s /\
  parse_raw_file dbg64
   (hdr 2 32 2 1 ++ frm [linked_cel_ch 0 1 0 1; raw_cel_ch 1 (-1) 0 255 2 1 [0; 0; 0; 0; 5; 6; 7; 255]] ++
    frm [layer_ch 1 0 0 255 [97]; layer_ch 1 0 0 255 [98]; raw_cel_ch 0 0 0 255 1 1 [1; 2; 3; 4]; raw_cel_ch 1 0 0 255 1 1 [9; 9; 9; 9]]) = Ok (backwards raw) /\
  load dbg64 (enc_file (backwards raw)) = Ok s' /\
  map (fun k => render_frame dbg64 no_inflate s' k (repeat 0 8) SelAll) [0; 1] =
    [Ok [5; 6; 7; 255; 1; 2; 3; 4]; Ok [6; 6; 7; 13; 0; 0; 0; 0]].
Proof.
  destruct (parse_raw_file dbg64 two) as [raw| |] eqn:R; [|vm_compute in R; discriminate..]. vm_compute in R. injection R as <-.
  do 3 eexists. split; [reflexivity|]. split.
  { eexists [], _, _. split; [reflexivity|]. repeat constructor; discriminate. }
  split; [vm_compute; reflexivity|]. split; [vm_compute; reflexivity|]. split; [vm_compute; reflexivity|]. vm_compute. reflexivity.
Qed.

(** If every frame brings a layer, the layers change places. *)
Definition scattered : bytes :=
  hdr 2 32 1 1 ++ frm [layer_ch 1 0 0 255 [97]; raw_cel_ch 0 0 0 255 1 1 [1; 2; 3; 255]; raw_cel_ch 1 0 0 255 1 1 [9; 9; 9; 255]] ++
  frm [layer_ch 0 0 0 255 [98]].
Example C128_scattered : exists raw s s', parse_raw_file dbg64 scattered = Ok raw /\ load dbg64 scattered = Ok s /\
  load dbg64 (enc_file (backwards raw)) = Ok s' /\ api_layers s <> api_layers s' /\
  render_frame dbg64 no_inflate s 0 (repeat 0 4) SelVisible = Ok [1; 2; 3; 255] /\
  render_frame dbg64 no_inflate s' 1 (repeat 0 4) SelVisible = Ok [9; 9; 9; 255].
Proof.
  destruct (parse_raw_file dbg64 scattered) as [raw| |] eqn:R; [|vm_compute in R; discriminate..]. vm_compute in R. injection R as <-.
  do 3 eexists. split; [reflexivity|]. split; [vm_compute; reflexivity|]. split; [vm_compute; reflexivity|].
  split; [discriminate|]. split; vm_compute; reflexivity.
Qed.
