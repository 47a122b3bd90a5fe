(** The same colours in other palette chunks. *)
From Verif.Model Require Import Loader.
From Verif.Spec Require Import Bytes FileSpec Edits.

(** Palette chunks of any kind in place of palette chunks, otherwise no change *)
Definition recoded (x y : chunk) : Prop := x = y \/ (role_of x = Colours /\ role_of y = Colours).
(** Only old palette chunks are exchanged. *)
Definition is_old (x : chunk) : Prop := match x with ChPalette0004 _ | ChPalette0011 _ => True | _ => False end.
Definition old_recoded (x y : chunk) : Prop := x = y \/ (is_old x /\ is_old y).
(** Every palette chunk is replaced by [p]. *)
Definition recode (p : chunk) (raw : raw_file) : raw_file :=
  {| rw_header := rw_header raw;
     rw_frames := map (fun fr => {| rf_duration := rf_duration fr;
       rf_chunks := map (fun x => match role_of x with Colours => p | _ => x end) (rf_chunks fr) |}) (rw_frames raw) |}.

(** A new palette chunk with all colours *)
Definition whole_palette (pal : list color) : palette_chunk :=
  {| pc_first := 0; pc_last := 255; pc_entries := map (fun x => {| pe_color := x; pe_name := None |}) pal |}.

(** Old palette chunks have opaque colours.  What they do not mention is
    transparent black, and the transparent index is made transparent. *)
Definition paintable (transparent k : Z) (x : color) : Prop :=
  k = transparent \/ alpha x = 255 \/ x = {| red := 0; green := 0; blue := 0; alpha := 0 |}.
Definition all_paintable (transparent : Z) (pal : list color) : Prop :=
  forall k x, nth_error pal k = Some x -> paintable transparent (Z.of_nat k) x.
(** One packet for each colour from number [k] that is to be mentioned; [skip] colours
    before [k] are not. *)
Fixpoint packets (transparent skip k : Z) (pal : list color) : list packet :=
  match pal with
  | [] => []
  | x :: pal' =>
      if (k =? transparent) || (alpha x =? 255)
      then {| pk_entries_to_skip := skip; pk_colors := [{| rgb_red := red x; rgb_green := green x; rgb_blue := blue x |}] |}
             :: packets transparent 0 (k + 1) pal'
      else packets transparent (skip + 1) (k + 1) pal'
  end.
Definition old_palette (transparent : Z) (pal : list color) : old_palette_chunk :=
  {| op_packets := packets transparent 0 0 pal |}.

(** A chunk for these colours *)
Definition expresses (transparent : Z) (pal : list color) (p : chunk) : Prop :=
  p = ChPalette (whole_palette pal) \/
  (all_paintable transparent pal /\
   (p = ChPalette0004 (old_palette transparent pal) \/ p = ChPalette0011 (old_palette transparent pal))).
