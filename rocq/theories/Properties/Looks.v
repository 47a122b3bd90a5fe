(** From the bytes of any file to the pixels of its frames (C99); pictures
    without half transparent pixels (C100). *)
From Verif.Model Require Import Loader.
From Verif.Spec Require Import Bytes Format BlendSpec FileSpec LoaderSpec ImageSpec RenderSpec Composite Loads Looks.
From Verif.Proofs Require Import LoadsProps LooksProps BinaryFinal.
From Verif.Tests Require Import Configs Build.

(** ** C99 *)
(** The file as the grammar of the format reads it ([raw], [f]), and the pixels
    of a frame by the formulas of C77; nothing of the loader in between. *)
Theorem C99_frame : forall c i raw f, cfg_ok c -> is_bytes i -> addressable c i ->
  raw_file_l (kept_error c) raw i -> complete_file raw f ->
  forall inflate, inflate_ok inflate -> file_fits c f ->
  forall sel k fr target r, nth_error (f_frames f) k = Some fr -> is_bytes target ->
  (forall cel l, In cel (filled fr) -> on_layer (file_layers f) sel (cc_layer_index cel) = Some l -> separable (ly_blend_mode l)) ->
  ((exists s, load c i = Ok s /\ render_frame c inflate s (Z.of_nat k) target sel = Ok r) <->
   (forall j cel, In (j, cel) (file_cels (f_frames f)) -> exists im, picture_of (f_frames f) cel im) /\
   (forall cel l im, In cel (filled fr) -> on_layer (file_layers f) sel (cc_layer_index cel) = Some l -> picture_of (f_frames f) cel im ->
      exists image, decoded inflate f im (repeat 0 (Z.to_nat (rgba_size im))) image) /\
   file_width f * file_height f * 4 <= zlen target /\ zlen r = zlen target /\
   skipn (Z.to_nat (file_width f * file_height f * 4)) r = skipn (Z.to_nat (file_width f * file_height f * 4)) target /\
   forall x y, 0 <= x < file_width f -> 0 <= y < file_height f ->
     exists back p, pixel (file_width f) target x y = Some back /\ pixel (file_width f) r x y = Some p /\
       looks inflate f sel x y (filled fr) back p).
Proof. exact frame_looks. Qed.
Print Assumptions C99_frame.

(** There is only one such pixel. *)
Theorem C99_unique : forall c i s, cfg_ok c -> is_bytes i -> addressable c i -> load c i = Ok s ->
  forall inflate, inflate_ok inflate -> forall sel k fr, nth_error (f_frames (af_file s)) k = Some fr ->
  (forall cel l, In cel (filled fr) -> on_layer (file_layers (af_file s)) sel (cc_layer_index cel) = Some l -> separable (ly_blend_mode l)) ->
  forall x y back p q, is_px back -> looks inflate (af_file s) sel x y (filled fr) back p ->
  looks inflate (af_file s) sel x y (filled fr) back q -> p = q.
Proof. exact looks_unique. Qed.
Print Assumptions C99_unique.

(** Frame 1 shows the picture of frame 0 one pixel further right, multiplied
    with a picture of its own. *)
Definition linked_file : bytes :=
  hdr 2 32 3 1 ++
  frm [layer_ch 1 0 0 255 [97]; layer_ch 1 0 1 255 [98]; raw_cel_ch 0 0 0 255 2 1 [10; 20; 30; 255; 40; 50; 60; 255]] ++
  frm [linked_cel_ch 0 1 0 0; raw_cel_ch 1 0 0 255 2 1 [128; 128; 128; 255; 128; 128; 128; 255]].
Definition not_packed : inflater := fun _ _ => (ZError, []).
Example C99_example : exists raw f fr s, raw_file_l (kept_error dbg64) raw linked_file /\ complete_file raw f /\ file_fits dbg64 f /\
  nth_error (f_frames f) 1 = Some fr /\ length (filled fr) = 2%nat /\
  Forall (fun l => separable (ly_blend_mode l)) (file_layers f) /\
  load dbg64 linked_file = Ok s /\
  render_frame dbg64 not_packed s 1 (repeat 0 12) SelAll = Ok [128; 128; 128; 255; 5; 10; 15; 255; 40; 50; 60; 255].
Proof.
  assert (B : is_bytes linked_file) by (apply bytes_by_compute; reflexivity).
  assert (A : addressable dbg64 linked_file) by (vm_compute; reflexivity).
  destruct (parse_file dbg64 linked_file) as [f|e|p] eqn:P; [|vm_compute in P; discriminate..].
  apply (proj1 (parse_file_complete dbg64 linked_file f (or_intror eq_refl) B A)) in P as R. destruct R as (raw & R & F).
  vm_compute in P. injection P as <-. exists raw. eexists. eexists. eexists.
  split; [exact R|]. split; [exact F|]. split.
  { split; [vm_compute; reflexivity|]. intros k cel im Hin. vm_compute in Hin.
    destruct Hin as [[= <- <-]|[[= <- <-]|[[= <- <-]|[]]]]; cbn [cc_content]; intros [= <-]; split; vm_compute; reflexivity. }
  split; [reflexivity|]. split; [reflexivity|]. split; [repeat constructor|]. split; [vm_compute; reflexivity|]. vm_compute. reflexivity.
Qed.

(** ** C100 *)
(** An opaque pixel on an opaque normal layer is shown if all pixels above it
    are transparent, whatever their blend modes. *)
Theorem C100_topmost : forall c i s, cfg_ok c -> is_bytes i -> addressable c i -> load c i = Ok s ->
  forall inflate, inflate_ok inflate -> forall sel, sprite_fits c s ->
  forall k sf, nth_error (api_frames s) k = Some sf ->
  forall target r x y below cel above l p, is_bytes target -> render_frame c inflate s (Z.of_nat k) target sel = Ok r ->
  0 <= x < canvas_width s -> 0 <= y < canvas_height s -> sf_cels sf = below ++ cel :: above ->
  drawn s sel cel = Some l -> ly_blend_mode l = BNormal -> ly_opacity l = 255 -> cel_pixel inflate s cel x y p -> pa p = 255 ->
  (forall cel' l' q, In cel' above -> drawn s sel cel' = Some l' -> cel_pixel inflate s cel' x y q -> pa q = 0) ->
  pixel (canvas_width s) r x y = Some p.
Proof. exact topmost_shown. Qed.
Print Assumptions C100_topmost.

(** Where all pictures are transparent, what the buffer shows stays. *)
Theorem C100_nothing : forall c i s, cfg_ok c -> is_bytes i -> addressable c i -> load c i = Ok s ->
  forall inflate, inflate_ok inflate -> forall sel, sprite_fits c s ->
  forall k sf, nth_error (api_frames s) k = Some sf ->
  forall target r x y, is_bytes target -> render_frame c inflate s (Z.of_nat k) target sel = Ok r ->
  0 <= x < canvas_width s -> 0 <= y < canvas_height s ->
  (forall cel l q, In cel (sf_cels sf) -> drawn s sel cel = Some l -> cel_pixel inflate s cel x y q -> pa q = 0) ->
  exists back p, pixel (canvas_width s) target x y = Some back /\ pixel (canvas_width s) r x y = Some p /\
    (pa back <> 0 -> p = back) /\ (pa back = 0 -> pa p = 0).
Proof. exact nothing_shown. Qed.
Print Assumptions C100_nothing.

(** Drawing such a frame a second time changes nothing. *)
Theorem C100_again : forall c i s, cfg_ok c -> is_bytes i -> addressable c i -> load c i = Ok s ->
  forall inflate, inflate_ok inflate -> forall sel, sprite_fits c s ->
  forall k sf, nth_error (api_frames s) k = Some sf ->
  forall target r, is_bytes target -> sharp inflate s sel (sf_cels sf) ->
  render_frame c inflate s (Z.of_nat k) target sel = Ok r -> render_frame c inflate s (Z.of_nat k) r sel = Ok r.
Proof. exact drawn_again. Qed.
Print Assumptions C100_again.

(** Two layers; the first pixel is covered by both, the second by the lower one
    and a transparent pixel, the third by a transparent one only.  With a half
    transparent pixel drawing twice makes a difference. *)
Definition sharp_file (a : Z) : bytes :=
  hdr 1 32 3 1 ++
  frm [layer_ch 1 0 0 255 [97]; layer_ch 1 0 0 255 [98]; raw_cel_ch 0 0 0 255 2 1 [10; 20; 30; 255; 40; 50; 60; 255];
       raw_cel_ch 1 0 0 255 3 1 [70; 80; 90; a; 1; 2; 3; 0; 4; 5; 6; 0]].
Example C100_example :
  (exists s sf, load dbg64 (sharp_file 255) = Ok s /\ nth_error (api_frames s) 0 = Some sf /\ sharp not_packed s SelAll (sf_cels sf) /\
    render_frame dbg64 not_packed s 0 [1; 1; 1; 1; 2; 2; 2; 2; 9; 9; 9; 100] SelAll =
      Ok [70; 80; 90; 255; 40; 50; 60; 255; 9; 9; 9; 100]) /\
  (exists s r, load dbg64 (sharp_file 128) = Ok s /\ render_frame dbg64 not_packed s 0 (repeat 0 12) (SelMask [false; true]) = Ok r /\
    render_frame dbg64 not_packed s 0 r (SelMask [false; true]) <> Ok r).
Proof.
  split.
  - do 2 eexists. split; [vm_compute; reflexivity|]. split; [reflexivity|]. split; [|vm_compute; reflexivity].
    intros cel l Hin Hd. cbn [sf_cels] in Hin. destruct Hin as [<-|[<-|[]]]; vm_compute in Hd; injection Hd as <-;
      (split; [reflexivity|]); (split; [reflexivity|]); intros x y p (Hcv & image & (im & Him & Hdec) & Hp);
      vm_compute in Him; injection Him as <-; unfold decoded in Hdec; cbn [h_color_depth f_header af_file] in Hdec;
      destruct Hdec as [Hst _]; unfold stored in Hst; cbn [im_compressed im_data] in Hst; subst image;
      unfold covers in Hcv; cbn [fc_origin fc_size fst snd] in *; apply andb_true_iff in Hcv as [Hcv Hy2]; apply andb_true_iff in Hcv as [Hcv Hy1];
      apply andb_true_iff in Hcv as [Hx1 Hx2]; apply Z.leb_le in Hx1, Hy1; apply Z.ltb_lt in Hx2, Hy2;
      assert (y = 0) as -> by lia; (assert (x = 0 \/ x = 1 \/ x = 2) as [-> | [-> | ->]] by lia); try (exfalso; lia); vm_compute in Hp; injection Hp as <-; cbn; auto.
  - do 2 eexists. split; [vm_compute; reflexivity|]. split; [vm_compute; reflexivity|]. vm_compute. discriminate.
Qed.

(** The same with an upper layer of mode hue, whose pixels are transparent, in
    a release build. *)
Definition hue_above : bytes :=
  hdr 1 32 2 1 ++
  frm [layer_ch 1 0 0 255 [97]; layer_ch 1 0 12 255 [98]; raw_cel_ch 0 0 0 255 1 1 [10; 20; 30; 255];
       raw_cel_ch 1 0 0 255 2 1 [70; 80; 90; 0; 1; 2; 3; 0]].
Example C100_hue : exists s, load rel64 hue_above = Ok s /\ map ly_blend_mode (api_layers s) = [BNormal; BHue] /\
  render_frame rel64 not_packed s 0 [1; 1; 1; 1; 9; 9; 9; 100] SelAll = Ok [10; 20; 30; 255; 9; 9; 9; 100].
Proof. eexists. split; [vm_compute; reflexivity|]. split; vm_compute; reflexivity. Qed.
