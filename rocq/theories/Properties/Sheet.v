(** Frames of a sprite on one canvas (C137). *)
From Verif.Model Require Import Loader.
From Verif.Spec Require Import Bytes LoaderSpec ImageSpec RenderSpec Refusals Made Sheet.
From Verif.Proofs Require Import SheetProps.
From Verif.Tests Require Import Configs Build.

(** ** C137 *)
(** Cels of several frames (or of one frame several times) can be put into one
    frame of a larger sprite, at places that do not overlap.  If no cel leaves
    the canvas of its frame, the picture has the pictures of the frames at these
    places and nothing elsewhere. *)
Theorem C137_sheet : forall c inflate s s' sel, cfg_ok c -> inflate_ok inflate -> typed c s -> typed c s' -> made_fits c s -> made_fits c s' ->
  same_material s s' ->
  forall j sf' ps (T R : spot -> bytes) target, nth_error (api_frames s') j = Some sf' -> sf_cels sf' = sheet_cels s ps -> apart s ps ->
  is_bytes target -> canvas_size s' <= zlen target ->
  (forall k dx dy, In (k, dx, dy) ps -> (exists sf, nth_error (api_frames s) k = Some sf /\ kept_inside s sel sf) /\
     is_bytes (T (k, dx, dy)) /\ render_frame c inflate s (Z.of_nat k) (T (k, dx, dy)) sel = Ok (R (k, dx, dy)) /\
     holds_at s s' (k, dx, dy) (T (k, dx, dy)) target) ->
  exists r, render_frame c inflate s' (Z.of_nat j) target sel = Ok r /\
    (forall p, In p ps -> holds_at s s' p (R p) r) /\
    forall x y, 0 <= x < canvas_width s' -> 0 <= y < canvas_height s' -> (forall p, In p ps -> ~ in_place s p x y) ->
      pixel (canvas_width s') r x y = pixel (canvas_width s') target x y.
Proof. exact sheets. Qed.
Print Assumptions C137_sheet.

(** All frames of a file in a row *)
Theorem C137_strip : forall c i s, cfg_ok c -> is_bytes i -> addressable c i -> load c i = Ok s -> sprite_fits c s ->
  forall inflate sel (R : nat -> bytes), inflate_ok inflate ->
  zlen (api_frames s) * canvas_width s < 2 ^ 16 -> canvas_size (strip s) < 2 ^ usize_bits c ->
  (forall k sf cel, nth_error (api_frames s) k = Some sf -> In cel (sf_cels sf) -> fst (fc_origin cel) + Z.of_nat k * canvas_width s < 2 ^ 15) ->
  (forall k sf, nth_error (api_frames s) k = Some sf -> kept_inside s sel sf /\
     render_frame c inflate s (Z.of_nat k) (repeat 0 (Z.to_nat (canvas_size s))) sel = Ok (R k)) ->
  exists r, render_frame c inflate (strip s) 0 (repeat 0 (Z.to_nat (canvas_size (strip s)))) sel = Ok r /\
    forall k x y, (k < length (api_frames s))%nat -> 0 <= x < canvas_width s -> 0 <= y < canvas_height s ->
      pixel (canvas_width (strip s)) r (x + Z.of_nat k * canvas_width s) y = pixel (canvas_width s) (R k) x y.
Proof. exact strip_loaded. Qed.
Print Assumptions C137_strip.

(** Three frames of 2 x 1 pixels; the last shows the picture of the first below a
    multiplying layer. *)
Definition film : bytes :=
  hdr 3 32 2 1 ++
  frm [layer_ch 1 0 0 255 [97]; layer_ch 1 0 1 255 [98]; raw_cel_ch 0 0 0 255 2 1 [100; 200; 50; 255; 10; 20; 30; 255]] ++
  frm [raw_cel_ch 0 1 0 255 1 1 [1; 2; 3; 4]] ++
  frm [linked_cel_ch 0 0 0 0; raw_cel_ch 1 0 0 255 1 1 [128; 128; 128; 255]].
Definition no_inflate : inflater := fun _ _ => (ZError, []).
Example C137_example : exists s, load dbg64 film = Ok s /\ (forall sf sel, In sf (api_frames s) -> kept_inside s sel sf) /\
  map (fun k => render_frame dbg64 no_inflate s k (repeat 0 8) SelAll) [0; 1; 2] =
    [Ok [100; 200; 50; 255; 10; 20; 30; 255]; Ok [0; 0; 0; 0; 1; 2; 3; 4]; Ok [50; 100; 25; 255; 10; 20; 30; 255]] /\
  canvas_size (strip s) = 24 /\
  render_frame dbg64 no_inflate (strip s) 0 (repeat 0 24) SelAll =
    Ok [100; 200; 50; 255; 10; 20; 30; 255; 0; 0; 0; 0; 1; 2; 3; 4; 50; 100; 25; 255; 10; 20; 30; 255].
Proof.
  eexists. split; [vm_compute; reflexivity|]. split.
  { intros sf sel H. cbn in H. repeat destruct H as [<-|H]; try destruct H; intros cel l x y Hcel _ Hcov; cbn in Hcel; repeat destruct Hcel as [<-|Hcel]; try destruct Hcel;
      unfold covers in Hcov; cbn in Hcov; unfold canvas_width, canvas_height; cbn; lia. }
  split; [vm_compute; reflexivity|]. split; vm_compute; reflexivity.
Qed.

(** A picture that leaves the canvas is seen in the next frame of the strip. *)
Definition wide : bytes :=
  hdr 2 32 1 1 ++ frm [layer_ch 1 0 0 255 [97]; raw_cel_ch 0 0 0 255 2 1 [100; 200; 50; 255; 10; 20; 30; 255]] ++ frm [].
Example C137_needed : exists s, load dbg64 wide = Ok s /\
  map (fun k => render_frame dbg64 no_inflate s k (repeat 0 4) SelAll) [0; 1] = [Ok [100; 200; 50; 255]; Ok [0; 0; 0; 0]] /\
  render_frame dbg64 no_inflate (strip s) 0 (repeat 0 8) SelAll = Ok [100; 200; 50; 255; 10; 20; 30; 255].
Proof. eexists. split; [vm_compute; reflexivity|]. split; vm_compute; reflexivity. Qed.
