(** The example program of the readme, and values that the type of
    [create_palette] admits. *)
From Verif.Model Require Import Loader.
From Verif.Spec Require Import Bytes ImageSpec RenderSpec.

(** README.md, "Usage": load the file, make a buffer of zeros of
    [width * height * 4] bytes, draw frame 0 with the visible layers. *)
Inductive usage_error := UsageLoad (e : load_sprite_error) | UsageRender (e : load_image_error).
Definition usage (c : cfg) (inflate : inflater) (data : bytes) : out usage_error bytes :=
  match load c data with
  | Ok s =>
      let '(width, height) := api_size s in
      let* n := usizec c (width * height) in
      let* size := usizec c (n * 4) in
      let* rgba := vec_zeroed c size in
      match render_frame c inflate s 0 rgba SelVisible with
      | Ok rgba => Ok rgba
      | Err (e, _) => Err (UsageRender e)
      | Panic p => Panic p
      end
  | Err e => Err (UsageLoad e)
  | Panic p => Panic p
  end.

(** Palette chunks whose numbers fit their types: [u8] limits, in any order; [u8]
    skips and vectors of three-byte colours of any possible length. *)
Definition typed_palette (c : cfg) (x : chunk) : Prop :=
  match x with
  | ChPalette p => 0 <= pc_first p < 2 ^ 8 /\ 0 <= pc_last p < 2 ^ 8
  | ChPalette0004 p | ChPalette0011 p =>
      Forall (fun k => 0 <= pk_entries_to_skip k < 2 ^ 8 /\ 3 * zlen (pk_colors k) < 2 ^ (usize_bits c - 1)) (op_packets p)
  | _ => True
  end.
