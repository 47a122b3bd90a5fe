(** Copies of sprites and grey sprites (C87, C88). *)
From Verif.Model Require Import Loader.
From Verif.Spec Require Import Bytes ImageSpec BlendSpec RenderSpec Laws.
From Verif.Proofs Require Import RecolourProps ExactProps.
From Verif.Tests Require Import Configs Build.

(** ** C87 *)
(** The canvases may be of different size and depth. *)
Theorem C87_moved : forall c i s i' s', cfg_ok c -> is_bytes i -> addressable c i -> load c i = Ok s ->
  is_bytes i' -> addressable c i' -> load c i' = Ok s' ->
  forall inflate, inflate_ok inflate -> sprite_fits c s -> sprite_fits c s' ->
  forall sel sel' k sf k' sf', nth_error (api_frames s) k = Some sf -> nth_error (api_frames s') k' = Some sf' ->
  forall dx dy,
  Forall2 (copied inflate (fun p => p) dx dy (af_file s) (af_file s')) (shown s sel (sf_cels sf)) (shown s' sel' (sf_cels sf')) ->
  forall target target' r r', is_bytes target -> is_bytes target' ->
  render_frame c inflate s (Z.of_nat k) target sel = Ok r ->
  render_frame c inflate s' (Z.of_nat k') target' sel' = Ok r' ->
  forall x y, 0 <= x < canvas_width s -> 0 <= y < canvas_height s ->
  0 <= x + dx < canvas_width s' -> 0 <= y + dy < canvas_height s' ->
  pixel (canvas_width s') target' (x + dx) (y + dy) = pixel (canvas_width s) target x y ->
  pixel (canvas_width s') r' (x + dx) (y + dy) = pixel (canvas_width s) r x y.
Proof. exact copied_same. Qed.
Print Assumptions C87_moved.

(** A copy of a part of the canvas can be drawn if the whole can, provided that
    its images can be decoded. *)
Theorem C87_drawn : forall c i s i' s', cfg_ok c -> is_bytes i -> addressable c i -> load c i = Ok s ->
  is_bytes i' -> addressable c i' -> load c i' = Ok s' ->
  forall inflate, inflate_ok inflate -> sprite_fits c s -> sprite_fits c s' ->
  forall sel sel' k sf k' sf', nth_error (api_frames s) k = Some sf -> nth_error (api_frames s') k' = Some sf' ->
  forall dx dy,
  Forall2 (copied inflate (fun p => p) dx dy (af_file s) (af_file s')) (shown s sel (sf_cels sf)) (shown s' sel' (sf_cels sf')) ->
  (forall cel l, In cel (sf_cels sf') -> drawn s' sel' cel = Some l -> exists image, cel_image inflate s' cel image) ->
  forall target target' r, is_bytes target -> is_bytes target' -> canvas_size s' <= zlen target' ->
  (forall x y, 0 <= x < canvas_width s' -> 0 <= y < canvas_height s' ->
     0 <= x - dx < canvas_width s /\ 0 <= y - dy < canvas_height s /\
     pixel (canvas_width s') target' x y = pixel (canvas_width s) target (x - dx) (y - dy)) ->
  render_frame c inflate s (Z.of_nat k) target sel = Ok r ->
  exists r', render_frame c inflate s' (Z.of_nat k') target' sel' = Ok r' /\
    forall x y, 0 <= x < canvas_width s' -> 0 <= y < canvas_height s' ->
      pixel (canvas_width s') r' x y = pixel (canvas_width s) r (x - dx) (y - dy).
Proof. exact copy_drawn. Qed.
Print Assumptions C87_drawn.

(** With channels exchanged or repeated. *)
Theorem C87_channels : forall c i s i' s', cfg_ok c -> is_bytes i -> addressable c i -> load c i = Ok s ->
  is_bytes i' -> addressable c i' -> load c i' = Ok s' ->
  forall inflate, inflate_ok inflate -> sprite_fits c s -> sprite_fits c s' ->
  forall sel sel' k sf k' sf', nth_error (api_frames s) k = Some sf -> nth_error (api_frames s') k' = Some sf' ->
  (forall cel l, In cel (sf_cels sf) -> drawn s sel cel = Some l -> separable (ly_blend_mode l) /\ ly_blend_mode l <> BSoftLight) ->
  forall a b d dx dy, is_channel a -> is_channel b -> is_channel d ->
  Forall2 (copied inflate (rearranged a b d) dx dy (af_file s) (af_file s')) (shown s sel (sf_cels sf)) (shown s' sel' (sf_cels sf')) ->
  forall target target' r r', is_bytes target -> is_bytes target' ->
  render_frame c inflate s (Z.of_nat k) target sel = Ok r ->
  render_frame c inflate s' (Z.of_nat k') target' sel' = Ok r' ->
  forall x y, 0 <= x < canvas_width s -> 0 <= y < canvas_height s ->
  0 <= x + dx < canvas_width s' -> 0 <= y + dy < canvas_height s' ->
  pixel (canvas_width s') target' (x + dx) (y + dy) = option_map (rearranged a b d) (pixel (canvas_width s) target x y) ->
  pixel (canvas_width s') r' (x + dx) (y + dy) = option_map (rearranged a b d) (pixel (canvas_width s) r x y).
Proof. exact copied_channels. Qed.
Print Assumptions C87_channels.

(** Two pixels on two layers; the same with a palette, on a larger canvas and
    moved by (1, 1); and with red and blue exchanged. *)
Definition no_data : inflater := fun _ _ => (ZError, []).
Definition two_layers (depth w h : Z) (chunks : list bytes) : bytes :=
  hdr 1 depth w h ++ frm ([layer_ch 1 0 0 255 [97]; layer_ch 1 0 1 200 [98]] ++ chunks).
Definition in_rgba : bytes := two_layers 32 2 1 [raw_cel_ch 0 0 0 255 2 1 [10; 20; 30; 255; 40; 50; 60; 255]; raw_cel_ch 1 0 0 255 1 1 [128; 64; 32; 255]].
Definition in_palette : bytes := two_layers 8 3 2 [palette_ch 4 0 3 [(0, 0, 0, 0); (10, 20, 30, 255); (40, 50, 60, 255); (128, 64, 32, 255)];
  raw_cel_ch 0 1 1 255 2 1 [1; 2]; raw_cel_ch 1 1 1 255 1 1 [3]].
Definition exchanged_rgba : bytes := two_layers 32 2 1 [raw_cel_ch 0 0 0 255 2 1 [30; 20; 10; 255; 60; 50; 40; 255]; raw_cel_ch 1 0 0 255 1 1 [32; 64; 128; 255]].

Ltac copies := intros im im' image image' [= <-] [= <-] D D' x y Hx Hy; unfold decoded in D, D'; cbn [h_color_depth f_header af_file] in D, D';
  repeat match goal with
  | H : _ /\ _ |- _ => destruct H
  | H : exists _, _ |- _ => destruct H
  | H : stored _ _ _ _ |- _ => unfold stored in H; cbn [im_compressed im_data] in H
  | H : f_palette _ = Some _ |- _ => vm_compute in H; injection H as <-
  end; subst; cbn [fst snd] in *; replace y with 0 by lia;
  (assert (x = 0 \/ x = 1) as [-> | ->] by lia); try (exfalso; lia); vm_compute; reflexivity.

Example C87_moved_example : exists s s' sf sf', load dbg64 in_rgba = Ok s /\ load dbg64 in_palette = Ok s' /\
  nth_error (api_frames s) 0 = Some sf /\ nth_error (api_frames s') 0 = Some sf' /\
  Forall2 (copied no_data (fun p => p) 1 1 (af_file s) (af_file s')) (shown s SelAll (sf_cels sf)) (shown s' SelAll (sf_cels sf')) /\
  length (shown s SelAll (sf_cels sf)) = 2%nat /\
  render_frame dbg64 no_data s 0 (repeat 0 8) SelAll = Ok [7; 9; 10; 255; 40; 50; 60; 255] /\
  render_frame dbg64 no_data s' 0 (repeat 0 24) SelAll = Ok (repeat 0 16 ++ [7; 9; 10; 255; 40; 50; 60; 255]).
Proof.
  do 4 eexists. split; [vm_compute; reflexivity|]. split; [vm_compute; reflexivity|].
  split; [reflexivity|]. split; [reflexivity|]. split; [|repeat apply conj; vm_compute; reflexivity].
  match goal with |- Forall2 ?R ?a ?b => let a' := eval vm_compute in a in let b' := eval vm_compute in b in change (Forall2 R a' b') end.
  repeat apply Forall2_cons; try apply Forall2_nil; (do 4 (split; [reflexivity|])); copies.
Qed.
Example C87_channels_example : exists s s' sf sf', load dbg64 in_rgba = Ok s /\ load dbg64 exchanged_rgba = Ok s' /\
  nth_error (api_frames s) 0 = Some sf /\ nth_error (api_frames s') 0 = Some sf' /\
  Forall2 (copied no_data (rearranged pb pg pr) 0 0 (af_file s) (af_file s')) (shown s SelAll (sf_cels sf)) (shown s' SelAll (sf_cels sf')) /\
  render_frame dbg64 no_data s 0 (repeat 0 8) SelAll = Ok [7; 9; 10; 255; 40; 50; 60; 255] /\
  render_frame dbg64 no_data s' 0 (repeat 0 8) SelAll = Ok [10; 9; 7; 255; 60; 50; 40; 255].
Proof.
  do 4 eexists. split; [vm_compute; reflexivity|]. split; [vm_compute; reflexivity|].
  split; [reflexivity|]. split; [reflexivity|]. split; [|repeat apply conj; vm_compute; reflexivity].
  match goal with |- Forall2 ?R ?a ?b => let a' := eval vm_compute in a in let b' := eval vm_compute in b in change (Forall2 R a' b') end.
  repeat apply Forall2_cons; try apply Forall2_nil; (do 4 (split; [reflexivity|])); copies.
Qed.

(** ** C88 *)
(** Wanted: in a sprite without colours, drawn on a target without colours, no
    colours appear.  Refuted: three modes make colours. *)
Definition grey_layers (m : Z) : bytes :=
  hdr 1 16 1 1 ++ frm [layer_ch 1 0 0 255 [97]; layer_ch 1 0 m 255 [98]; raw_cel_ch 0 0 0 255 1 1 [100; 255]; raw_cel_ch 1 0 0 255 1 1 [200; 77]].
Theorem C88_grey_refuted : forall m, In m [9; 12; 13] -> exists s r g b, load rel64 (grey_layers m) = Ok s /\ grey_sprite s /\
  render_frame rel64 no_data s 0 [0; 0; 0; 0] SelAll = Ok [r; g; b; 255] /\ ~ (r = g /\ g = b).
Proof.
  intros m [<-|[<-|[<-|[]]]]; do 4 eexists; (split; [vm_compute; reflexivity|]); (split; [exact I|]);
    (split; [vm_compute; reflexivity|lia]).
Qed.
Print Assumptions C88_grey_refuted.

(** All others keep greys grey. *)
Theorem C88_modes_partial : forall m back front o, ~ tinting m -> grey back -> grey front ->
  forall c f r, blend_mode_to_blend_fn c m = Ok f -> f back front o = Ok r -> grey r.
Proof. exact mode_grey. Qed.
Print Assumptions C88_modes_partial.

Theorem C88_render_partial : forall c i s, cfg_ok c -> is_bytes i -> addressable c i -> load c i = Ok s -> grey_sprite s ->
  forall inflate, inflate_ok inflate -> sprite_fits c s ->
  forall sel k sf, nth_error (api_frames s) k = Some sf ->
  (forall cel l, In cel (sf_cels sf) -> drawn s sel cel = Some l -> ~ tinting (ly_blend_mode l)) ->
  forall target r, is_bytes target -> render_frame c inflate s (Z.of_nat k) target sel = Ok r ->
  forall x y back, 0 <= x < canvas_width s -> 0 <= y < canvas_height s ->
  pixel (canvas_width s) target x y = Some back -> grey back ->
  exists p, pixel (canvas_width s) r x y = Some p /\ grey p.
Proof. exact render_grey. Qed.
Print Assumptions C88_render_partial.

Example C88_example : Forall (fun '(m, r) => exists s, load rel64 (grey_layers m) = Ok s /\ render_frame rel64 no_data s 0 [0; 0; 0; 0] SelAll = Ok r)
  [(1, [94; 94; 94; 255]); (7, [88; 88; 88; 255]); (9, [110; 110; 97; 255]); (12, [208; 186; 186; 255]); (13, [208; 186; 186; 255]);
   (14, [30; 30; 30; 255]); (15, [30; 30; 30; 255])].
Proof. repeat apply Forall_cons; try apply Forall_nil; eexists; (split; [vm_compute; reflexivity|vm_compute; reflexivity]). Qed.
