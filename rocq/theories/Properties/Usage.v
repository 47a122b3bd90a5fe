(** Public helper functions on any values (C103); the example program of the
    readme (C104). *)
From Verif.Model Require Import Loader.
From Verif.Spec Require Import Bytes FileSpec ImageSpec BlendSpec RenderSpec Refusals Usage.
From Verif.Proofs Require Import UsageProps.
From Verif.Tests Require Import Configs Build.

(** ** C103 *)
(** [create_palette] on any header and frames, whether they come from a file or
    not. *)
Theorem C103_palette : forall c h fs, cfg_ok c -> 0 <= h_transparent_index h < 2 ^ 8 ->
  Forall (typed_palette c) (all_chunks fs) ->
  (forall p, create_palette c h fs = Ok p <->
     exists ws, spec_writes fs = inl ws /\ ws <> [] /\ zlen p = 256 /\
       forall k, 0 <= k < 256 -> nth_error p (Z.to_nat k) = Some (spec_color (h_transparent_index h) ws k)) /\
  (forall e, create_palette c h fs = Err e <->
     (spec_writes fs = inl [] /\ e = PEmpty) \/ spec_writes fs = inr e) /\
  forall q, create_palette c h fs <> Panic q.
Proof. exact any_palette. Qed.
Print Assumptions C103_palette.

(** [RawFrame::cels]: the cel chunks of the frame, in order. *)
Theorem C103_cels : forall f,
  map ChCel (raw_frame_cels f) = filter (fun x => match x with ChCel _ => true | _ => false end) (rf_chunks f).
Proof. exact cels_of_frame. Qed.
Print Assumptions C103_cels.

(** [ColorDepth]: [bpp] gives back the number in the file, and is eight times
    [pixel_size], which exists for three depths. *)
Theorem C103_depth :
  (forall d n, pixel_size d = Some n -> bpp d = 8 * n) /\
  (forall b, bpp (color_depth_from b) = b) /\
  (forall b, pixel_size (color_depth_from b) = None <-> b <> 8 /\ b <> 16 /\ b <> 32).
Proof. exact depth_sizes. Qed.
Print Assumptions C103_depth.

(** Limits in the wrong order, which no file has, leave the palette empty; then a
    packet that ends with the last colour, and one that goes further. *)
Definition some_header : header :=
  {| h_file_size := 0; h_frames := 1; h_width := 1; h_height := 1; h_color_depth := Indexed; h_flags := 1; h_speed := 100;
     h_transparent_index := 254; h_color_count := 0; h_pixel_width := 1; h_pixel_height := 1; h_grid_x := 0; h_grid_y := 0;
     h_grid_width := 16; h_grid_height := 16 |}.
Definition palette_frame (ch : chunk) : list raw_frame := [{| rf_duration := 1; rf_chunks := [ch] |}].
Definition two_colours (first last : Z) : chunk :=
  let e := {| pe_color := {| red := 1; green := 2; blue := 3; alpha := 4 |}; pe_name := None |} in
  ChPalette {| pc_first := first; pc_last := last; pc_entries := [e; e; e] |}.
Definition grey_packet (n : nat) : chunk :=
  ChPalette0011 {| op_packets :=
    [{| pk_entries_to_skip := 254; pk_colors := repeat {| rgb_red := 9; rgb_green := 9; rgb_blue := 9 |} n |}] |}.
Example C103_example : Forall (typed_palette dbg64) [two_colours 7 6; grey_packet 3] /\
  create_palette dbg64 some_header (palette_frame (two_colours 7 6)) = Err PEmpty /\
  create_palette dbg64 some_header (palette_frame (grey_packet 3)) = Err PIndexOOB /\
  (exists p, create_palette dbg64 some_header (palette_frame (grey_packet 2)) = Ok p /\
     skipn 253 p = [color_default; {| red := 9; green := 9; blue := 9; alpha := 0 |}; {| red := 9; green := 9; blue := 9; alpha := 255 |}]) /\
  exists p, create_palette dbg64 some_header (palette_frame (two_colours 254 255)) = Ok p /\
     skipn 253 p = [color_default; {| red := 1; green := 2; blue := 3; alpha := 0 |}; {| red := 1; green := 2; blue := 3; alpha := 4 |}].
Proof.
  split; [constructor; [split; cbn; lia|constructor; [|constructor]]; constructor; [split; vm_compute; intuition congruence|constructor]|].
  split; [vm_compute; reflexivity|]. split; [vm_compute; reflexivity|].
  split; (eexists; split; [vm_compute; reflexivity|vm_compute; reflexivity]).
Qed.

(** ** C104 *)
(** For a file that can be loaded the program never returns an error: there is
    a frame 0, and the buffer is large enough.  The picture is drawn over
    transparent black; panics are those of C97. *)
Theorem C104_loaded : forall c i s, cfg_ok c -> is_bytes i -> addressable c i -> load c i = Ok s ->
  forall inflate, inflate_ok inflate -> sprite_fits c s -> canvas_size s < 2 ^ (usize_bits c - 1) ->
  exists sf, nth_error (api_frames s) 0 = Some sf /\
  (forall e, usage c inflate i <> Err e) /\
  (forall r, usage c inflate i = Ok r <->
     zlen r = canvas_size s /\
     (forall cel l, In cel (sf_cels sf) -> drawn s SelVisible cel = Some l ->
        (exists image, cel_image inflate s cel image) /\ known_mode (ly_blend_mode l)) /\
     forall x y, 0 <= x < canvas_width s -> 0 <= y < canvas_height s ->
       exists p, pixel (canvas_width s) r x y = Some p /\
         composed c inflate s SelVisible x y (sf_cels sf) (mkpx 0 0 0 0) p) /\
  (forall q, usage c inflate i = Panic q <->
     exists before cel after l, sf_cels sf = before ++ cel :: after /\ drawn s SelVisible cel = Some l /\
       can_draw c inflate s SelVisible before (repeat 0 (Z.to_nat (canvas_size s))) /\
       hindered c inflate s SelVisible (repeat 0 (Z.to_nat (canvas_size s))) before cel l q).
Proof. exact usage_outcomes. Qed.
Print Assumptions C104_loaded.

Theorem C104_not_loaded : forall c inflate i,
  (forall e, load c i = Err e -> usage c inflate i = Err (UsageLoad e)) /\
  (forall q, load c i = Panic q -> usage c inflate i = Panic q).
Proof. exact usage_not_loaded. Qed.
Print Assumptions C104_not_loaded.

(** Canvases that do not fit the address space (32 bit only) *)
Theorem C104_too_large : forall c i s, cfg_ok c -> is_bytes i -> addressable c i -> load c i = Ok s -> forall inflate,
  (2 ^ (usize_bits c - 1) <= canvas_size s < 2 ^ usize_bits c -> usage c inflate i = Panic PCapacity) /\
  (2 ^ usize_bits c <= canvas_size s -> debug c = true -> usage c inflate i = Panic POverflow).
Proof. exact usage_too_large. Qed.
Print Assumptions C104_too_large.

(** The second layer is hidden; the third adds a half transparent pixel. *)
Definition readme_file : bytes :=
  hdr 1 32 2 1 ++
  frm [layer_ch 1 0 0 255 [97]; layer_ch 0 0 0 255 [98]; layer_ch 1 0 0 255 [99];
       raw_cel_ch 0 0 0 255 1 1 [10; 20; 30; 255]; raw_cel_ch 1 0 0 255 1 1 [1; 2; 3; 255];
       raw_cel_ch 2 0 0 255 2 1 [110; 120; 130; 128; 7; 8; 9; 128]].
Example C104_example :
  usage dbg64 (fun _ _ => (ZError, [])) readme_file = Ok [60; 70; 80; 255; 7; 8; 9; 128] /\
  (exists e, usage dbg64 (fun _ _ => (ZError, [])) (removelast readme_file) = Err (UsageLoad e)) /\
  usage dbg64 (fun _ _ => (ZError, [])) (hdr 1 32 1 1 ++ frm [layer_ch 1 0 0 255 [97]; raw_cel_ch 0 0 0 255 1 1 [1]]) = Panic PCopyLen /\
  usage rel32 (fun _ _ => (ZError, [])) (hdr 1 32 30000 30000 ++ frm [layer_ch 1 0 0 255 [97]]) = Panic PCapacity /\
  usage dbg32 (fun _ _ => (ZError, [])) (hdr 1 32 60000 60000 ++ frm [layer_ch 1 0 0 255 [97]]) = Panic POverflow.
Proof. split; [vm_compute; reflexivity|]. split; [eexists; vm_compute; reflexivity|]. repeat apply conj; vm_compute; reflexivity. Qed.
