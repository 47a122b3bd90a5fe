(** The time rendering takes, decoding included (C144). *)
From Verif.Model Require Import RenderSteps.
From Verif.Spec Require Import Bytes ImageSpec BlendSpec RenderSpec Made Convert Work.
From Verif.Proofs Require Import RenderStepsProps.
From Verif.Tests Require Import Configs Build.

(** ** C144 *)
(** Rendering a frame takes a round for every cel of the frame, and for every cel
    that is drawn at most a round for every line, two for every pixel and one
    more, whatever the data and whether rendering succeeds, fails or panics.  If
    it succeeds, it takes exactly one round for every line and pixel, and for
    greyscale and indexed sprites a second one for every pixel.  The counted
    renderer gives the outcome of the model's renderer. *)
Theorem C144_steps : forall c inflate s, cfg_ok c -> typed c s ->
  forall k sf target sel, nth_error (af_frames s) k = Some sf ->
  let m := k_render_frame c inflate s (Z.of_nat k) target sel in
  let cels := drawn_cels s sel (sf_cels sf) in
  snd m = render_frame c inflate s (Z.of_nat k) target sel /\
  0 <= fst m <= zlen (sf_cels sf) + zsum (fun cel => snd (fc_size cel) + area cel + (area cel + 1)) cels /\
  (cels_fit_images s -> Forall (fun cel => room cel < 2 ^ usize_bits c) (sf_cels sf) ->
   forall r, render_frame c inflate s (Z.of_nat k) target sel = Ok r ->
   fst m = zlen (sf_cels sf) + zsum (fun cel => snd (fc_size cel) + area cel +
     match h_color_depth (f_header (af_file s)) with Grayscale | Indexed => area cel | _ => 0 end) cels).
Proof. exact render_steps. Qed.
Print Assumptions C144_steps.

(** Loaded sprites on 64-bit targets need no further hypotheses. *)
Theorem C144_loaded : forall c inflate i s, usize_bits c = 64 -> is_bytes i -> addressable c i -> load c i = Ok s ->
  forall k sf target sel, nth_error (af_frames s) k = Some sf ->
  forall r, render_frame c inflate s (Z.of_nat k) target sel = Ok r ->
  fst (k_render_frame c inflate s (Z.of_nat k) target sel) =
    zlen (sf_cels sf) + zsum (fun cel => snd (fc_size cel) + area cel +
      match h_color_depth (f_header (af_file s)) with Grayscale | Indexed => area cel | _ => 0 end) (drawn_cels s sel (sf_cels sf)).
Proof. exact loaded_steps. Qed.
Print Assumptions C144_loaded.

Definition idle : inflater := fun _ _ => (ZError, []).
(** The rounds for the first frame of a file, and whether it renders *)
Definition rounds_for_frame (i : bytes) (size : Z) : option (Z * bool) :=
  match load dbg64 i with
  | Ok s => let m := k_render_frame dbg64 idle s 0 (repeat 0 (Z.to_nat size)) SelVisible in
      Some (fst m, match snd m with Ok _ => true | _ => false end)
  | _ => None
  end.
(** A cel of a hidden layer, and one of two by three pixels that is partly outside
    the canvas *)
Definition two_cels (depth : Z) (hidden data : bytes) : bytes := hdr 1 depth 2 2 ++
  frm [palette_ch 2 0 1 [(1, 2, 3, 4); (5, 6, 7, 8)]; layer_ch 0 0 0 255 [97]; layer_ch 1 0 0 255 [98];
       raw_cel_ch 0 0 0 255 1 1 hidden; raw_cel_ch 1 1 0 255 2 3 data].
(** RGBA: 2 cels, 3 lines, 6 pixels.  Indexed: 6 more.  A target that is too small:
    nothing.  Compressed data that are no stream: decoding fails before its first
    round. *)
Example C144_example :
  rounds_for_frame (two_cels 32 [9; 9; 9; 9] (repeat 7 24)) 16 = Some (11, true) /\
  rounds_for_frame (two_cels 8 [1] [0; 1; 1; 0; 1; 0]) 16 = Some (17, true) /\
  rounds_for_frame (two_cels 8 [1] [0; 1; 1; 0; 1; 0]) 15 = Some (0, false) /\
  rounds_for_frame (hdr 1 32 2 2 ++ frm [layer_ch 1 0 0 255 [98]; zip_cel_ch 0 0 0 255 2 2 [1; 2; 3]]) 16 = Some (1, false).
Proof. repeat split; vm_compute; reflexivity. Qed.
