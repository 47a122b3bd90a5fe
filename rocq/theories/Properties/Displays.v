(** From the bytes of any file to the pixels of its frames, by the published
    formats of sprites and of compressed data alone (C113). *)
From Verif.Model Require Import Loader Inflate.
From Verif.Spec Require Import Bytes Format BlendSpec FileSpec LoaderSpec ImageSpec RenderSpec Composite Loads Looks AllModes Zlib Deflate Mistakes Displays.
From Verif.Proofs Require Import BinaryFinal LoadsProps InflateFacts DeflateFacts UnpackProps ShownProps.
From Verif.Tests Require Import Configs Build.

(** ** C113 *)
(** Which files have a frame that is drawn, with any decompressor that keeps to
    RFC 1950 and 1951.  (Debug builds may panic on hue, saturation, colour and
    luminosity, see C37.) *)
Theorem C113_drawn : forall c i raw f, cfg_ok c -> is_bytes i -> addressable c i ->
  raw_file_l area_bad raw i -> complete_file raw f ->
  forall inflate, inflate_ok inflate -> reads_zlib inflate -> file_fits c f ->
  forall sel k fr target, nth_error (f_frames f) k = Some fr -> is_bytes target ->
  (debug c = true -> forall cel l, In cel (filled fr) -> on_layer (file_layers f) sel (cc_layer_index cel) = Some l ->
     separable (ly_blend_mode l)) ->
  ((exists s r, load c i = Ok s /\ render_frame c inflate s (Z.of_nat k) target sel = Ok r) <->
   presentable f sel fr /\ file_width f * file_height f * 4 <= zlen target).
Proof. exact drawn_iff. Qed.
Print Assumptions C113_drawn.

(** The pixels of all frames that are drawn. *)
Theorem C113_pixels : forall c i raw f, cfg_ok c -> is_bytes i -> addressable c i ->
  raw_file_l area_bad raw i -> complete_file raw f ->
  forall inflate, inflate_ok inflate -> reads_zlib inflate -> file_fits c f ->
  forall sel k fr target r s, nth_error (f_frames f) k = Some fr -> is_bytes target ->
  load c i = Ok s -> render_frame c inflate s (Z.of_nat k) target sel = Ok r ->
  forall x y, 0 <= x < file_width f -> 0 <= y < file_height f ->
    exists back p, pixel (file_width f) target x y = Some back /\ pixel (file_width f) r x y = Some p /\
      displays f sel x y (filled fr) back p.
Proof. exact pixels_display. Qed.
Print Assumptions C113_pixels.

(** Without those four modes the buffer is described completely. *)
Theorem C113_frame : forall c i raw f, cfg_ok c -> is_bytes i -> addressable c i ->
  raw_file_l area_bad raw i -> complete_file raw f ->
  forall inflate, inflate_ok inflate -> reads_zlib inflate -> file_fits c f ->
  forall sel k fr target r, nth_error (f_frames f) k = Some fr -> is_bytes target ->
  (forall cel l, In cel (filled fr) -> on_layer (file_layers f) sel (cc_layer_index cel) = Some l -> separable (ly_blend_mode l)) ->
  ((exists s, load c i = Ok s /\ render_frame c inflate s (Z.of_nat k) target sel = Ok r) <->
   presentable f sel fr /\
   file_width f * file_height f * 4 <= zlen target /\ zlen r = zlen target /\
   skipn (Z.to_nat (file_width f * file_height f * 4)) r = skipn (Z.to_nat (file_width f * file_height f * 4)) target /\
   forall x y, 0 <= x < file_width f -> 0 <= y < file_height f ->
     exists back p, pixel (file_width f) target x y = Some back /\ pixel (file_width f) r x y = Some p /\
       displays f sel x y (filled fr) back p).
Proof. exact frame_displays. Qed.
Print Assumptions C113_frame.

(** There are such decompressors. *)
Theorem C113_contract : inflate_ok inflate_zlib /\ reads_zlib inflate_zlib.
Proof. exact (conj inflate_zlib_ok inflate_reads_zlib). Qed.
Print Assumptions C113_contract.

(** A compressed picture whose stream holds six of its eight pixels; frame 1
    shows it one pixel further right, with a plain picture multiplied onto it. *)
Definition six_of_eight : bytes :=
  hdr 2 32 3 2 ++
  frm [layer_ch 1 0 0 255 [97]; layer_ch 1 0 1 255 [98];
       zip_cel_ch 0 0 0 255 4 2 [120; 1; 99; 231; 224; 252; 207; 142; 5; 3; 0; 73; 26; 6; 139]] ++
  frm [linked_cel_ch 0 1 0 0; raw_cel_ch 1 2 0 255 1 1 [128; 128; 128; 255]].
Example C113_example : exists raw f fr s, raw_file_l area_bad raw six_of_eight /\ complete_file raw f /\ file_fits dbg64 f /\
  nth_error (f_frames f) 1 = Some fr /\ length (filled fr) = 2%nat /\
  (forall cel l, In cel (filled fr) -> on_layer (file_layers f) SelAll (cc_layer_index cel) = Some l -> separable (ly_blend_mode l)) /\
  presentable f SelAll fr /\ load dbg64 six_of_eight = Ok s /\
  render_frame dbg64 inflate_zlib s 1 (repeat 1 24) SelAll =
    Ok [1; 1; 1; 1; 7; 8; 9; 255; 4; 4; 5; 255; 1; 1; 1; 1; 7; 8; 9; 255; 7; 8; 9; 255].
Proof.
  assert (B : is_bytes six_of_eight) by (apply bytes_by_compute; reflexivity).
  assert (A : addressable dbg64 six_of_eight) by (vm_compute; reflexivity).
  assert (C : cfg_ok dbg64) by (right; reflexivity).
  destruct (parse_file dbg64 six_of_eight) as [f|e|p] eqn:P; [|vm_compute in P; discriminate..].
  apply (proj1 (parse_file_complete dbg64 six_of_eight f C B A)) in P as R. destruct R as (raw & R & F).
  apply (raw_unkept dbg64 _ _ C B) in R.
  assert (FF : file_fits dbg64 f).
  { vm_compute in P. injection P as <-. split; [vm_compute; reflexivity|]. intros k cel im Hin. vm_compute in Hin.
    destruct Hin as [[= <- <-]|[[= <- <-]|[[= <- <-]|[]]]]; cbn [cc_content]; intros [= <-]; split; vm_compute; reflexivity. }
  destruct (nth_error (f_frames f) 1) as [fr|] eqn:K; [|vm_compute in P; injection P as <-; discriminate].
  assert (S : forall cel l, In cel (filled fr) -> on_layer (file_layers f) SelAll (cc_layer_index cel) = Some l -> separable (ly_blend_mode l)).
  { vm_compute in P. injection P as <-. vm_compute in K. injection K as <-. intros cel l Hin H. vm_compute in Hin.
    destruct Hin as [<-|[<-|[]]]; vm_compute in H; injection H as <-; exact I. }
  destruct (load dbg64 six_of_eight) as [s|e|p] eqn:L; [|vm_compute in L; discriminate..].
  assert (D : render_frame dbg64 inflate_zlib s 1 (repeat 1 24) SelAll =
    Ok [1; 1; 1; 1; 7; 8; 9; 255; 4; 4; 5; 255; 1; 1; 1; 1; 7; 8; 9; 255; 7; 8; 9; 255]).
  { vm_compute in L. injection L as <-. vm_compute. reflexivity. }
  exists raw, f, fr, s. repeat (split; [assumption || reflexivity|]).
  split; [vm_compute in P; injection P as <-; vm_compute in K; injection K as <-; reflexivity|].
  split; [exact S|]. split; [|split; [reflexivity|exact D]].
  apply (C113_drawn dbg64 six_of_eight raw f C B A R F inflate_zlib (proj1 C113_contract) (proj2 C113_contract) FF SelAll 1 fr (repeat 1 24) K).
  - apply bytes_by_compute. reflexivity.
  - intros _. exact S.
  - eauto.
Qed.
