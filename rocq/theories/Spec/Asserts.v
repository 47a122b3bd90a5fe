(** Where the debug assertions of the hue, saturation, colour and luminosity
    modes fail. *)
From Coq Require Import QArith.
From Verif.Model Require Import Loader.
From Verif.Spec Require Import Bytes BlendSpec HslSpec ImageSpec RenderSpec.
Local Open Scope Z_scope.

(** The front counts as not transparent (its alpha is multiplied by 255), or a
    colour that is not grey is given a luminosity above 1 (of 255). *)
Definition asserts_fail (m : blend_mode) (back front : px) : Prop :=
  pa back <> 0 /\
  (2 <= pa front \/
   let '(c, l) := recoloured ase_set_sat m (rgb_of back) (rgb_of front) in (1 < l /\ min3 c < max3 c)%Q).

(** They do not fail at [(x, y)] for any of the cels, each drawn over the pixel
    [mid] that the cels before it make of [back]. *)
Definition calm (c : cfg) (inflate : inflater) (s : ase_file) (sel : layer_selection)
    (x y : Z) (cels : list frame_cel) (back : px) : Prop :=
  forall before cel after l image front mid, cels = before ++ cel :: after ->
    drawn s sel cel = Some l -> covers cel x y = true -> cel_image inflate s cel image ->
    pixel (fst (fc_size cel)) image (x - fst (fc_origin cel)) (y - snd (fc_origin cel)) = Some front ->
    composed c inflate s sel x y before back mid -> hsl (ly_blend_mode l) -> ~ asserts_fail (ly_blend_mode l) mid front.
