(** Canvases and pictures that differ (C129). *)
From Verif.Model Require Import Loader.
From Verif.Spec Require Import Bytes BlendSpec ImageSpec RenderSpec Stable.
From Verif.Proofs Require Import StableProps.
From Verif.Tests Require Import Configs Build.

(** ** C129 *)
(** Two canvases whose alphas are equal and whose channels differ by at most [d]
    do so after a frame is drawn over them. *)
Theorem C129_canvas : forall c i s inflate sel k sf d t t' r r', cfg_ok c -> is_bytes i -> addressable c i -> load c i = Ok s ->
  inflate_ok inflate -> sprite_fits c s -> nth_error (api_frames s) k = Some sf ->
  (forall cel l, In cel (sf_cels sf) -> drawn s sel cel = Some l -> gentle (ly_blend_mode l)) ->
  0 <= d -> is_bytes t -> is_bytes t' -> canvas_rel s (within d) t t' ->
  render_frame c inflate s (Z.of_nat k) t sel = Ok r -> render_frame c inflate s (Z.of_nat k) t' sel = Ok r' ->
  canvas_rel s (within d) r r'.
Proof. exact canvas_stable. Qed.
Print Assumptions C129_canvas.

(** A lighter canvas gives a lighter picture. *)
Theorem C129_order : forall c i s inflate sel k sf t t' r r', cfg_ok c -> is_bytes i -> addressable c i -> load c i = Ok s ->
  inflate_ok inflate -> sprite_fits c s -> nth_error (api_frames s) k = Some sf ->
  (forall cel l, In cel (sf_cels sf) -> drawn s sel cel = Some l -> rising (ly_blend_mode l)) ->
  is_bytes t -> is_bytes t' -> canvas_rel s lighter t t' ->
  render_frame c inflate s (Z.of_nat k) t sel = Ok r -> render_frame c inflate s (Z.of_nat k) t' sel = Ok r' ->
  canvas_rel s lighter r r'.
Proof. exact canvas_order. Qed.
Print Assumptions C129_order.

(** The pictures may differ as well, here and there, if their layers are of the
    modes normal, darken or lighten. *)
Theorem C129_pictures : forall c i i' s s', cfg_ok c -> is_bytes i -> addressable c i -> load c i = Ok s ->
  is_bytes i' -> addressable c i' -> load c i' = Ok s' ->
  forall inflate, inflate_ok inflate ->
  forall sel sel' d k k' sf sf' t t' r r', 0 <= d -> canvas_width s' = canvas_width s -> canvas_height s' = canvas_height s ->
  sprite_fits c s -> sprite_fits c s' -> nth_error (api_frames s) k = Some sf -> nth_error (api_frames s') k' = Some sf' ->
  Forall2 (resembles d inflate s s' sel sel') (sf_cels sf) (sf_cels sf') -> is_bytes t -> is_bytes t' -> canvas_rel s (within d) t t' ->
  render_frame c inflate s (Z.of_nat k) t sel = Ok r -> render_frame c inflate s' (Z.of_nat k') t' sel' = Ok r' ->
  canvas_rel s (within d) r r'.
Proof. exact frames_resemble. Qed.
Print Assumptions C129_pictures.

(** Lighter pictures over a lighter canvas give a lighter picture, if their
    layers are of any separable mode but difference, exclusion, subtract and divide. *)
Theorem C129_lighter : forall c i i' s s', cfg_ok c -> is_bytes i -> addressable c i -> load c i = Ok s ->
  is_bytes i' -> addressable c i' -> load c i' = Ok s' ->
  forall inflate, inflate_ok inflate ->
  forall sel sel' k k' sf sf' t t' r r', canvas_width s' = canvas_width s -> canvas_height s' = canvas_height s ->
  sprite_fits c s -> sprite_fits c s' -> nth_error (api_frames s) k = Some sf -> nth_error (api_frames s') k' = Some sf' ->
  Forall2 (outshone inflate s s' sel sel') (sf_cels sf) (sf_cels sf') -> is_bytes t -> is_bytes t' -> canvas_rel s lighter t t' ->
  render_frame c inflate s (Z.of_nat k) t sel = Ok r -> render_frame c inflate s' (Z.of_nat k') t' sel' = Ok r' ->
  canvas_rel s lighter r r'.
Proof. exact frames_outshone. Qed.
Print Assumptions C129_lighter.

(** One pixel: an opaque layer, one that is half transparent, and one that
    multiplies.  The pictures differ by 3. *)
Definition pile_of (a b : Z) : bytes :=
  hdr 1 32 1 1 ++ frm [layer_ch 1 0 0 255 [97]; layer_ch 1 0 0 200 [98]; layer_ch 1 0 1 255 [99];
    raw_cel_ch 0 0 0 255 1 1 [a; 100; 100; 128]; raw_cel_ch 1 0 0 255 1 1 [b; 7; 8; 77]; raw_cel_ch 2 0 0 255 1 1 [240; 250; 255; 255]].
Definition no_inflate : inflater := fun _ _ => (ZError, []).
Example C129_example : exists s s', load dbg64 (pile_of 100 50) = Ok s /\ load dbg64 (pile_of 103 53) = Ok s' /\
  (exists sf sf', nth_error (api_frames s) 0 = Some sf /\ nth_error (api_frames s') 0 = Some sf' /\
     Forall2 (resembles 3 no_inflate s s' SelAll SelAll) (sf_cels sf) (sf_cels sf')) /\
  render_frame dbg64 no_inflate s 0 [10; 20; 30; 200] SelAll = Ok [56; 50; 55; 255] /\
  render_frame dbg64 no_inflate s 0 [12; 23; 30; 200] SelAll = Ok [57; 51; 55; 255] /\
  render_frame dbg64 no_inflate s' 0 [12; 23; 30; 200] SelAll = Ok [58; 51; 55; 255].
Proof.
  do 2 eexists. split; [vm_compute; reflexivity|]. split; [vm_compute; reflexivity|]. split.
  - do 2 eexists. split; [reflexivity|]. split; [reflexivity|].
    repeat (constructor; [split; [reflexivity|]; split; [reflexivity|]; cbn [drawn]; split; [reflexivity|]; split; [reflexivity|];
      intros image image' (im & Hj & D1 & D2) (im' & Hj' & D1' & D2'); injection Hj as <-; injection Hj' as <-|]); [..|constructor].
    all: unfold stored in D1, D1'; cbn [im_compressed im_data] in D1, D1'; subst image image'.
    3: left; split; [reflexivity|exact I].
    all: right; split; [exact I|]; intros x y p q; unfold pixel; cbn [fst fc_size];
      destruct (Z.to_nat (y * 1 + x)) as [|n]; intros Hp Hq; [|unfold quad in Hp; rewrite skipn_all2 in Hp by (cbn [length]; lia); discriminate Hp].
    all: injection Hp as <-; injection Hq as <-; repeat split; vm_compute; congruence.
  - do 2 (split; [vm_compute; reflexivity|]). vm_compute. reflexivity.
Qed.
(** Other modes enlarge differences, by a factor of two or without bound, ... *)
Example C129_steep :
  overlay dbg64 (mkpx 100 0 0 255) (mkpx 255 0 0 255) 255 = Ok (mkpx 200 0 0 255) /\
  overlay dbg64 (mkpx 110 0 0 255) (mkpx 255 0 0 255) 255 = Ok (mkpx 220 0 0 255) /\
  color_dodge dbg64 (mkpx 0 0 0 255) (mkpx 255 0 0 255) 255 = Ok (mkpx 0 0 0 255) /\
  color_dodge dbg64 (mkpx 1 0 0 255) (mkpx 255 0 0 255) 255 = Ok (mkpx 255 0 0 255).
Proof. repeat split. Qed.
(** ... and difference may turn light into dark. *)
Example C129_falling :
  difference dbg64 (mkpx 0 0 0 255) (mkpx 128 0 0 255) 255 = Ok (mkpx 128 0 0 255) /\
  difference dbg64 (mkpx 128 0 0 255) (mkpx 128 0 0 255) 255 = Ok (mkpx 0 0 0 255).
Proof. split; reflexivity. Qed.
(** Different pictures that are multiplied may differ more afterwards. *)
Example C129_multiplied :
  multiply dbg64 (mkpx 200 0 0 255) (mkpx 200 0 0 255) 255 = Ok (mkpx 157 0 0 255) /\
  multiply dbg64 (mkpx 203 0 0 255) (mkpx 203 0 0 255) 255 = Ok (mkpx 162 0 0 255).
Proof. split; reflexivity. Qed.
(** A layer below, one in soft light, and one that subtracts *)
Definition glow_of (a b : Z) : bytes :=
  hdr 1 32 1 1 ++ frm [layer_ch 1 0 0 255 [97]; layer_ch 1 0 9 200 [98]; layer_ch 1 0 17 255 [99];
    raw_cel_ch 0 0 0 255 1 1 [a; 100; 100; 128]; raw_cel_ch 1 0 0 255 1 1 [b; 7; 8; 177]; raw_cel_ch 2 0 0 255 1 1 [4; 5; 6; 255]].
Example C129_glow : exists s s', load dbg64 (glow_of 100 50) = Ok s /\ load dbg64 (glow_of 120 250) = Ok s' /\
  (exists sf sf', nth_error (api_frames s) 0 = Some sf /\ nth_error (api_frames s') 0 = Some sf' /\
     Forall2 (outshone no_inflate s s' SelAll SelAll) (sf_cels sf) (sf_cels sf')) /\
  render_frame dbg64 no_inflate s 0 [10; 20; 30; 200] SelAll = Ok [41; 33; 49; 255] /\
  render_frame dbg64 no_inflate s 0 [12; 29; 30; 200] SelAll = Ok [42; 36; 49; 255] /\
  render_frame dbg64 no_inflate s' 0 [12; 29; 30; 200] SelAll = Ok [106; 36; 49; 255].
Proof.
  do 2 eexists. split; [vm_compute; reflexivity|]. split; [vm_compute; reflexivity|]. split.
  - do 2 eexists. split; [reflexivity|]. split; [reflexivity|].
    repeat (constructor; [split; [reflexivity|]; split; [reflexivity|]; cbn [drawn]; split; [reflexivity|]; split; [reflexivity|];
      intros image image' (im & Hj & D1 & D2) (im' & Hj' & D1' & D2'); injection Hj as <-; injection Hj' as <-|]); [..|constructor].
    all: unfold stored in D1, D1'; cbn [im_compressed im_data] in D1, D1'; subst image image'.
    3: left; split; [reflexivity|exact I].
    all: right; split; [exact I|]; intros x y p q; unfold pixel; cbn [fst fc_size];
      destruct (Z.to_nat (y * 1 + x)) as [|n]; intros Hp Hq; [|unfold quad in Hp; rewrite skipn_all2 in Hp by (cbn [length]; lia); discriminate Hp].
    all: injection Hp as <-; injection Hq as <-; repeat split; vm_compute; congruence.
  - do 2 (split; [vm_compute; reflexivity|]). vm_compute. reflexivity.
Qed.
(** A lighter picture that is subtracted gives a darker one. *)
Example C129_subtracted :
  subtract dbg64 (mkpx 200 0 0 255) (mkpx 20 0 0 255) 255 = Ok (mkpx 180 0 0 255) /\
  subtract dbg64 (mkpx 200 0 0 255) (mkpx 30 0 0 255) 255 = Ok (mkpx 170 0 0 255).
Proof. split; reflexivity. Qed.
