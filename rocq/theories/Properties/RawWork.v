(** The time rendering takes if pictures are stored raw (C145). *)
From Verif.Model Require Import RenderSteps.
From Verif.Spec Require Import Bytes ImageSpec BlendSpec RenderSpec Work RawWork.
From Verif.Proofs Require Import RawWorkProps.
From Verif.Tests Require Import Configs Build.

(** ** C145 *)
(** If no image of a drawn cel is compressed, rendering a frame takes at most a
    round for every cel, one for every line of a drawn cel, and for the data of
    its image one for every four bytes (RGBA), two for every two (greyscale) or
    two for every one (indexed), whether rendering succeeds, fails or panics.
    Only compressed images take longer than the data they come from
    (C141_unbounded). *)
Theorem C145_raw : forall c inflate i s, usize_bits c = 64 -> is_bytes i -> addressable c i -> load c i = Ok s ->
  forall k sf target sel, nth_error (af_frames s) k = Some sf ->
  let cels := drawn_cels s sel (sf_cels sf) in
  Forall (uncompressed_cel s) cels ->
  fst (k_render_frame c inflate s (Z.of_nat k) target sel) <=
    zlen (sf_cels sf) + zsum (fun cel => snd (fc_size cel) + data_rounds (h_color_depth (f_header (af_file s))) (data_bytes s cel)) cels.
Proof. exact raw_steps. Qed.
Print Assumptions C145_raw.

(** In terms of the length of the file *)
Theorem C145_file : forall c inflate i s, usize_bits c = 64 -> is_bytes i -> addressable c i -> load c i = Ok s ->
  forall k sf target sel, nth_error (af_frames s) k = Some sf ->
  let cels := drawn_cels s sel (sf_cels sf) in
  Forall (uncompressed_cel s) cels ->
  fst (k_render_frame c inflate s (Z.of_nat k) target sel) <= zlen (sf_cels sf) + zlen cels * (65535 + 2 * zlen i).
Proof. exact raw_file_steps. Qed.
Print Assumptions C145_file.

Definition idle : inflater := fun _ _ => (ZError, []).
Definition raw_cost (i : bytes) (size : Z) : option (Z * Z * bool) :=
  match load dbg64 i with
  | Ok s => let m := k_render_frame dbg64 idle s 0 (repeat 0 (Z.to_nat size)) SelVisible in
      match af_frames s with
      | sf :: _ => Some (fst m, zlen (sf_cels sf) + zsum (fun cel => snd (fc_size cel) + data_rounds (h_color_depth (f_header (af_file s))) (data_bytes s cel))
                                  (drawn_cels s SelVisible (sf_cels sf)), match snd m with Ok _ => true | _ => false end)
      | [] => None
      end
  | _ => None
  end.
Definition one_cel (w h depth : Z) (data : bytes) : bytes := hdr 1 depth 2 2 ++
  frm [palette_ch 2 0 1 [(1, 2, 3, 4); (5, 6, 7, 8)]; layer_ch 1 0 0 255 [98]; raw_cel_ch 0 0 0 255 w h data].
(** The bound is met in all colour depths.  A cel of no width still takes its
    lines.  Large sizes with little data: the panic comes before any pixel. *)
Example C145_example :
  raw_cost (one_cel 2 3 8 [0; 1; 1; 0; 1; 0]) 16 = Some (16, 16, true) /\
  raw_cost (one_cel 2 3 16 (repeat 7 12)) 16 = Some (16, 16, true) /\
  raw_cost (one_cel 2 3 32 (repeat 7 24)) 16 = Some (10, 10, true) /\
  raw_cost (one_cel 0 9 8 []) 16 = Some (10, 10, true) /\
  raw_cost (one_cel 20 30 8 [1; 1]) 16 = Some (1, 35, false).
Proof. repeat split; vm_compute; reflexivity. Qed.
