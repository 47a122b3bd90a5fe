(** What rendering does, counted (C141). *)
From Verif.Model Require Import Work Inflate.
From Verif.Spec Require Import Bytes ImageSpec BlendSpec RenderSpec Made Work.
From Verif.Proofs Require Import WorkProps.
From Verif.Tests Require Import Configs Build.

(** ** C141 *)
(** The renderer with the record of what it does gives the outcome of the model's
    renderer. *)
Theorem C141_same : forall c inflate s k target sel,
  snd (w_render_frame c inflate s k target sel) = render_frame c inflate s k target sel.
Proof. exact same_work. Qed.
Print Assumptions C141_same.

(** Rendering a frame goes through every pixel of every drawn cel once, calls the
    blend function at every place of the canvas once for every drawn cel that
    lies there (and nowhere else), and loads the image of every drawn cel once,
    in the order of the cels; those of other cels are not touched. *)
Theorem C141_done : forall c inflate s, typed c s ->
  forall k sf target sel, nth_error (af_frames s) k = Some sf ->
  let t := fst (w_render_frame c inflate s (Z.of_nat k) target sel) in
  let cels := drawn_cels s sel (sf_cels sf) in
  forall r, render_frame c inflate s (Z.of_nat k) target sel = Ok r ->
  rounds t = zsum area cels /\ (forall x y, blends_at x y t = covering s cels x y) /\
  images_loaded t = map fc_image_index cels.
Proof. exact work_done. Qed.
Print Assumptions C141_done.

(** If rendering fails or panics, no more than this was done.  The number of
    blends is at most the area of the canvas for every drawn cel, however large
    the cels are. *)
Theorem C141_bound : forall c inflate s, typed c s ->
  forall k sf target sel, nth_error (af_frames s) k = Some sf ->
  let t := fst (w_render_frame c inflate s (Z.of_nat k) target sel) in
  let cels := drawn_cels s sel (sf_cels sf) in
  rounds t <= zsum area cels /\ (forall x y, blends_at x y t <= covering s cels x y) /\
  blends t <= zlen cels * (canvas_width s * canvas_height s) /\
  (exists rest, map fc_image_index cels = images_loaded t ++ rest).
Proof. exact work_bound. Qed.
Print Assumptions C141_bound.

(** Neither the canvas nor the length of the file bounds the rounds: a file of 210
    bytes with a canvas of one pixel takes 65535 * 65535 rounds for one blend. *)
Theorem C141_unbounded : forall c, usize_bits c = 64 ->
  exists i s, is_bytes i /\ zlen i = 210 /\ load c i = Ok s /\ api_size s = (1, 1) /\
    render_frame c inflate_zlib s 0 [0; 0; 0; 0] SelAll = Ok [1; 2; 3; 4] /\
    let t := fst (w_render_frame c inflate_zlib s 0 [0; 0; 0; 0] SelAll) in
    rounds t = 4294836225 /\ blends t = 1 /\ images_loaded t = [0].
Proof. exact work_unbounded. Qed.
Print Assumptions C141_unbounded.

Definition no_inflate : inflater := fun _ _ => (ZError, []).
(** What is done for frame [k] of a file *)
Definition work_of (i : bytes) (k size : Z) : option (list event * bool) :=
  match load dbg64 i with
  | Ok s => let w := w_render_frame dbg64 no_inflate s k (repeat 0 (Z.to_nat size)) SelVisible in
      Some (fst w, match snd w with Ok _ => true | _ => false end)
  | _ => None
  end.
(** A hidden layer, a cel of which one pixel is on the canvas, and one of two
    pixels; in the second frame, the last is a link. *)
Definition three_layers : bytes := hdr 2 32 2 1 ++
  frm [layer_ch 0 0 0 255 [97]; layer_ch 1 0 0 255 [98]; layer_ch 1 0 0 200 [99];
       raw_cel_ch 0 0 0 255 1 1 [9; 9; 9; 9];
       raw_cel_ch 1 1 0 255 2 1 [10; 20; 30; 255; 40; 50; 60; 128];
       raw_cel_ch 2 0 0 255 2 1 [70; 80; 90; 200; 100; 110; 120; 140]] ++
  frm [linked_cel_ch 2 0 0 0].
Example C141_example : (exists s, load dbg64 three_layers = Ok s /\ zlen (af_images s) = 3) /\
  work_of three_layers 0 8 = Some ([Loads 1; Round; Blended 1 0; Round; Loads 2; Round; Blended 0 0; Round; Blended 1 0], true) /\
  work_of three_layers 1 8 = Some ([Loads 2; Round; Blended 0 0; Round; Blended 1 0], true).
Proof. split; [eexists; split; vm_compute; reflexivity|]. split; vm_compute; reflexivity. Qed.

(** A canvas of one pixel in the middle of a picture of nine times nine. *)
Definition large_cel : bytes := hdr 1 32 1 1 ++
  frm [layer_ch 1 0 0 255 [97]; raw_cel_ch 0 (65536 - 4) (65536 - 4) 255 9 9 (repeat 7 324)].
Example C141_large : exists t, work_of large_cel 0 4 = Some (t, true) /\
  rounds t = 81 /\ blends t = 1 /\ blends_at 0 0 t = 1 /\ images_loaded t = [0].
Proof. eexists. split; [vm_compute; reflexivity|]. vm_compute. auto. Qed.

(** A target that is too small: nothing is done. *)
Example C141_nothing : work_of large_cel 0 3 = Some ([], false).
Proof. vm_compute. reflexivity. Qed.
