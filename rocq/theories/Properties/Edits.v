(** How loading and drawing react to changes of the file (C72-C76). *)
From Verif.Model Require Import Loader.
From Verif.Spec Require Import Bytes Format FileSpec LoaderSpec ImageSpec RenderSpec Published Edits.
From Verif.Proofs Require Import EditFacts EditProps.
From Verif.Tests Require Import Configs Build.

Definition no_inflate : inflater := fun _ _ => (ZError, []).

(** ** C72 *)
(** Chunks of unknown types, and known ones that the sprite does not use, can be
    inserted anywhere except before user data, which would change its owner. *)
Theorem C72_insert : forall c i i' raw raw', cfg_ok c -> is_bytes i -> addressable c i ->
  is_bytes i' -> addressable c i' ->
  parse_raw_file c i = Ok raw -> parse_raw_file c i' = Ok raw' ->
  same_picture_header (rw_header raw) (rw_header raw') -> frames_by padded raw raw' ->
  same_outcome c (load c i) (load c i').
Proof. exact padded_load. Qed.
Print Assumptions C72_insert.

(** A layer with user data and a cel; then with an unknown chunk that has user
    data before, a tileset-like unknown chunk between, and a path at the end. *)
Definition plain_file : bytes :=
  hdr 1 32 1 1 ++ frm [layer_ch 1 0 0 255 [97]; text_ch [104; 105]; raw_cel_ch 0 0 0 255 1 1 [1; 2; 3; 4]].
Definition padded_file : bytes :=
  hdr 1 32 1 1 ++
  frm [encode_chunk 0x7777 [1; 2]; text_ch [120]; layer_ch 1 0 0 255 [97]; text_ch [104; 105];
       encode_chunk 0x2017 []; raw_cel_ch 0 0 0 255 1 1 [1; 2; 3; 4]; encode_chunk 0xABCD []].
Example C72_example : exists raw raw' s, parse_raw_file dbg64 plain_file = Ok raw /\
  parse_raw_file dbg64 padded_file = Ok raw' /\ frames_by padded raw raw' /\
  load dbg64 padded_file = Ok s /\
  map (fun l => match lc_user_data l with Some u => ud_text u | None => None end) (f_layers (af_file s)) = [Some [104; 105]].
Proof.
  do 3 eexists. split; [vm_compute; reflexivity|]. split; [vm_compute; reflexivity|]. split.
  - constructor; [|constructor]. split; [reflexivity|]. cbn [rf_chunks].
    match goal with |- padded [?l; ?u; ?x] [?a; ?b; _; _; ?p; _; ?q] =>
      apply (padded_one _ [] a [b] [l; u; p; x; q]); [|reflexivity| |cbn; auto];
      [apply (padded_one _ [l; u] p [] [x; q]); [|reflexivity| |cbn; auto];
       [apply (padded_one _ [l; u; x] q [] []); [apply padded_none|reflexivity| |exact I]|]|] end;
      (split; [cbn; auto|repeat constructor]).
  - split; vm_compute; reflexivity.
Qed.

(** Between the layer and its user data the same chunk does matter. *)
Example C72_between : exists s, load dbg64
    (hdr 1 32 1 1 ++ frm [layer_ch 1 0 0 255 [97]; encode_chunk 0x7777 [1; 2]; text_ch [104; 105];
                          raw_cel_ch 0 0 0 255 1 1 [1; 2; 3; 4]]) = Ok s /\
  map lc_user_data (f_layers (af_file s)) = [None].
Proof. eexists. split; vm_compute; reflexivity. Qed.

(** ** C73 *)
(** The order of chunks of different kinds in a frame does not matter: cels may
    come before their layers, palettes after, and so on. *)
Theorem C73_order : forall c i i' raw raw', cfg_ok c -> is_bytes i -> addressable c i ->
  is_bytes i' -> addressable c i' ->
  parse_raw_file c i = Ok raw -> parse_raw_file c i' = Ok raw' ->
  same_picture_header (rw_header raw) (rw_header raw') -> frames_by reordered raw raw' ->
  same_outcome c (load c i) (load c i').
Proof. exact reordered_load. Qed.
Print Assumptions C73_order.

(** The cel before the layer, whose user data moves with it. *)
Definition early_cel_file : bytes :=
  hdr 1 32 1 1 ++ frm [raw_cel_ch 0 0 0 255 1 1 [1; 2; 3; 4]; layer_ch 1 0 0 255 [97]; text_ch [104; 105]].
Example C73_example : exists raw raw' s, parse_raw_file dbg64 plain_file = Ok raw /\
  parse_raw_file dbg64 early_cel_file = Ok raw' /\ frames_by reordered raw raw' /\
  load dbg64 early_cel_file = Ok s /\ render_frame dbg64 no_inflate s 0 [0; 0; 0; 0] SelAll = Ok [1; 2; 3; 4] /\
  map (fun l => match lc_user_data l with Some u => ud_text u | None => None end) (f_layers (af_file s)) = [Some [104; 105]].
Proof.
  do 3 eexists. split; [vm_compute; reflexivity|]. split; [vm_compute; reflexivity|]. split.
  - constructor; [|constructor]. split; [reflexivity|]. cbn [rf_chunks].
    match goal with |- reordered _ [?x; ?l; ?u] =>
      apply (reordered_one _ [] l [u] x [] []); [apply reordered_none|discriminate| | |exact I] end;
      (split; [cbn; auto|repeat constructor]).
  - split; [vm_compute; reflexivity|]. split; vm_compute; reflexivity.
Qed.

(** Layers are not exchanged: their order is what is drawn. *)
Example C73_same_kind : exists s s',
  load dbg64 (hdr 1 32 1 1 ++ frm [layer_ch 1 0 0 255 [97]; layer_ch 0 0 0 255 [98]; raw_cel_ch 0 0 0 255 1 1 [1; 2; 3; 4]]) = Ok s /\
  load dbg64 (hdr 1 32 1 1 ++ frm [layer_ch 0 0 0 255 [98]; layer_ch 1 0 0 255 [97]; raw_cel_ch 0 0 0 255 1 1 [1; 2; 3; 4]]) = Ok s' /\
  render_frame dbg64 no_inflate s 0 [0; 0; 0; 0] SelVisible = Ok [1; 2; 3; 4] /\
  render_frame dbg64 no_inflate s' 0 [0; 0; 0; 0] SelVisible = Ok [0; 0; 0; 0].
Proof. do 2 eexists. split; [vm_compute; reflexivity|]. split; [vm_compute; reflexivity|]. split; vm_compute; reflexivity. Qed.

(** ** C74 *)
(** A link is drawn like the image it stands for. *)
Theorem C74_links : forall c i i' s f', cfg_ok c -> is_bytes i -> addressable c i ->
  is_bytes i' -> addressable c i' ->
  load c i = Ok s -> parse_file c i' = Ok f' ->
  same_picture_header (f_header (af_file s)) (f_header f') ->
  f_palette (af_file s) = f_palette f' -> f_layers (af_file s) = f_layers f' ->
  unlinked_frames (f_frames (af_file s)) (f_frames f') ->
  exists s', load c i' = Ok s' /\ af_file s' = f' /\ api_layers s' = api_layers s /\
    map sf_duration (api_frames s') = map sf_duration (api_frames s) /\
    forall inflate k target sel, render_frame c inflate s k target sel = render_frame c inflate s' k target sel.
Proof. exact links_only_abbreviate. Qed.
Print Assumptions C74_links.

(** Frame 0 links to frame 1, elsewhere on the canvas. *)
Definition links_file : bytes :=
  hdr 2 32 2 1 ++ frm [layer_ch 1 0 0 255 [97]; linked_cel_ch 0 1 0 1] ++ frm [raw_cel_ch 0 0 0 255 1 1 [1; 2; 3; 4]].
Definition copies_file : bytes :=
  hdr 2 32 2 1 ++ frm [layer_ch 1 0 0 255 [97]; raw_cel_ch 0 1 0 255 1 1 [1; 2; 3; 4]] ++ frm [raw_cel_ch 0 0 0 255 1 1 [1; 2; 3; 4]].
Example C74_example : exists s f', load dbg64 links_file = Ok s /\ parse_file dbg64 copies_file = Ok f' /\
  f_layers (af_file s) = f_layers f' /\ unlinked_frames (f_frames (af_file s)) (f_frames f') /\
  api_image_count s = 1 /\
  render_frame dbg64 no_inflate s 0 (repeat 0 8) SelAll = Ok [0; 0; 0; 0; 1; 2; 3; 4].
Proof.
  do 2 eexists. split; [vm_compute; reflexivity|]. split; [vm_compute; reflexivity|].
  split; [reflexivity|]. split; [|split; vm_compute; reflexivity].
  constructor; [|constructor; [|constructor]]; (split; [reflexivity|]); (constructor; [|constructor]);
    (split; [reflexivity|split; [reflexivity|split; [reflexivity|]]]); [|left; reflexivity].
  right. do 2 eexists. split; [reflexivity|]. split; reflexivity.
Qed.

(** ** C75 *)
(** If all that is drawn is moved by [(dx, dy)], so is the result, even on a
    canvas of another size, wherever the canvas held the same. *)
Theorem C75_move : forall c i s i' s', cfg_ok c -> is_bytes i -> addressable c i -> load c i = Ok s ->
  is_bytes i' -> addressable c i' -> load c i' = Ok s' ->
  h_color_depth (f_header (af_file s)) = h_color_depth (f_header (af_file s')) ->
  f_palette (af_file s) = f_palette (af_file s') ->
  forall inflate, inflate_ok inflate -> sprite_fits c s -> sprite_fits c s' ->
  forall sel sel' k sf k' sf' dx dy, nth_error (api_frames s) k = Some sf -> nth_error (api_frames s') k' = Some sf' ->
  shown s' sel' (sf_cels sf') = map (move dx dy) (shown s sel (sf_cels sf)) ->
  forall target target' r r', is_bytes target -> is_bytes target' ->
  render_frame c inflate s (Z.of_nat k) target sel = Ok r ->
  render_frame c inflate s' (Z.of_nat k') target' sel' = Ok r' ->
  forall x y, 0 <= x < canvas_width s -> 0 <= y < canvas_height s ->
  0 <= x + dx < canvas_width s' -> 0 <= y + dy < canvas_height s' ->
  pixel (canvas_width s') target' (x + dx) (y + dy) = pixel (canvas_width s) target x y ->
  pixel (canvas_width s') r' (x + dx) (y + dy) = pixel (canvas_width s) r x y.
Proof. exact pictures_move. Qed.
Print Assumptions C75_move.

(** Two pixels on a 2 x 1 canvas; moved by (-1, 1) on one of 1 x 2. *)
Definition two_pixels (w h x y : Z) : bytes :=
  hdr 1 32 w h ++ frm [layer_ch 1 0 0 255 [97]; layer_ch 1 0 1 128 [98];
    raw_cel_ch 0 x y 255 2 1 [10; 20; 30; 255; 40; 50; 60; 255]; raw_cel_ch 1 (x + 1) y 255 1 1 [128; 128; 128; 255]].
Example C75_example : exists s s' sf sf', load dbg64 (two_pixels 2 1 0 0) = Ok s /\
  load dbg64 (two_pixels 1 2 (-1) 1) = Ok s' /\
  nth_error (api_frames s) 0 = Some sf /\ nth_error (api_frames s') 0 = Some sf' /\
  shown s' SelAll (sf_cels sf') = map (move (-1) 1) (shown s SelAll (sf_cels sf)) /\
  render_frame dbg64 no_inflate s 0 (repeat 0 8) SelAll = Ok [10; 20; 30; 255; 30; 38; 45; 255] /\
  render_frame dbg64 no_inflate s' 0 (repeat 0 8) SelAll = Ok [0; 0; 0; 0; 30; 38; 45; 255].
Proof.
  do 4 eexists. split; [vm_compute; reflexivity|]. split; [vm_compute; reflexivity|].
  split; [reflexivity|]. split; [reflexivity|]. split; [reflexivity|]. split; vm_compute; reflexivity.
Qed.

(** ** C76 *)
(** Frames added at the end change nothing about the frames before them. *)
Theorem C76_append : forall c i i' raw raw' s s', cfg_ok c -> is_bytes i -> addressable c i ->
  is_bytes i' -> addressable c i' ->
  parse_raw_file c i = Ok raw -> parse_raw_file c i' = Ok raw' ->
  same_picture_header (rw_header raw) (rw_header raw') -> continued raw raw' ->
  load c i = Ok s -> load c i' = Ok s' ->
  api_size s = api_size s' /\ api_layers s = api_layers s' /\
  (exists l, api_frames s' = api_frames s ++ l) /\ (exists l, api_tags s' = api_tags s ++ l) /\
  (exists l, api_slices s' = api_slices s ++ l) /\
  forall inflate,
    (forall j target, 0 <= j < api_image_count s -> load_image c inflate s' j target = load_image c inflate s j target) /\
    (forall k target sel, 0 <= k < zlen (api_frames s) ->
       render_frame c inflate s' k target sel = render_frame c inflate s k target sel).
Proof. exact frames_continue. Qed.
Print Assumptions C76_append.

Example C76_example : exists raw raw' s s',
  parse_raw_file dbg64 plain_file = Ok raw /\
  parse_raw_file dbg64 (plain_file ++ frm [raw_cel_ch 0 0 0 255 1 1 [5; 6; 7; 8]; tags_ch [(0, 1, [116])]]) = Ok raw' /\
  continued raw raw' /\ load dbg64 plain_file = Ok s /\
  load dbg64 (plain_file ++ frm [raw_cel_ch 0 0 0 255 1 1 [5; 6; 7; 8]; tags_ch [(0, 1, [116])]]) = Ok s' /\
  zlen (api_frames s') = 2 /\ render_frame dbg64 no_inflate s' 0 [0; 0; 0; 0] SelAll = Ok [1; 2; 3; 4].
Proof.
  do 4 eexists. split; [vm_compute; reflexivity|]. split; [vm_compute; reflexivity|]. split.
  - eexists. split; [reflexivity|]. repeat constructor; discriminate.
  - split; [vm_compute; reflexivity|]. split; [vm_compute; reflexivity|]. split; vm_compute; reflexivity.
Qed.
