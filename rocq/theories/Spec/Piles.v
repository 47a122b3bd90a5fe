(** Many layers of mode normal, without rounding. *)
From Coq Require Import QArith.
From Verif.Model Require Import Loader.
From Verif.Spec Require Import Bytes BlendSpec ImageSpec RenderSpec Ideal.
Local Open Scope Q_scope.

(** Fronts with their opacities, from bottom to top, over a pixel of alpha [a]
    whose channel [ch], times its alpha, is [p]. *)
Fixpoint exact_alpha (fs : list (px * Z)) (a : Q) : Q :=
  match fs with
  | [] => a
  | (front, o) :: fs => exact_alpha fs (ideal_alpha a (strength front o))
  end.
Fixpoint exact_channel (ch : px -> Z) (fs : list (px * Z)) (p : Q) : Q :=
  match fs with
  | [] => p
  | (front, o) :: fs => exact_channel ch fs (inject_Z (ch front) * strength front o + p * (1 - strength front o))
  end.

(** The alpha of [r] lies within [j] of them, each channel times it within [k]. *)
Definition pile_within (j k : Q) (fs : list (px * Z)) (back r : px) : Prop :=
  Qabs.Qabs (inject_Z (pa r) - 255 * exact_alpha fs (unit (pa back))) <= j /\
  forall ch, In ch [pr; pg; pb] ->
    Qabs.Qabs (inject_Z (ch r) * unit (pa r) - exact_channel ch fs (inject_Z (ch back) * unit (pa back))) <= k.

(** The program's function for normal, one front after the other. *)
Inductive normals (c : cfg) : list (px * Z) -> px -> px -> Prop :=
| normals_nil back : normals c [] back back
| normals_cons front o fs back mid r :
    normal c back front o = Ok mid -> normals c fs mid r -> normals c ((front, o) :: fs) back r.

(** What the drawn cels put at [(x, y)]: the pixels, and the opacities of their layers *)
Inductive pile (inflate : inflater) (s : ase_file) (sel : layer_selection) (x y : Z) : list frame_cel -> list (px * Z) -> Prop :=
| pile_nil : pile inflate s sel x y [] []
| pile_skip cel cels fs :
    drawn s sel cel = None \/ covers cel x y = false ->
    pile inflate s sel x y cels fs -> pile inflate s sel x y (cel :: cels) fs
| pile_draw cel cels l image front fs :
    drawn s sel cel = Some l -> covers cel x y = true -> cel_image inflate s cel image ->
    pixel (fst (fc_size cel)) image (x - fst (fc_origin cel)) (y - snd (fc_origin cel)) = Some front ->
    pile inflate s sel x y cels fs -> pile inflate s sel x y (cel :: cels) ((front, ly_opacity l) :: fs).

Definition faint_white : px := mkpx 255 255 255 1.
Definition almost_black : px := mkpx 1 1 1 255.
