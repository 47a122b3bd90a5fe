(** Order and symmetry of what is drawn. *)
From Verif.Model Require Import Loader.
From Verif.Spec Require Import Bytes BlendSpec ImageSpec RenderSpec.

Definition darkens (m : blend_mode) : Prop :=
  match m with BMultiply | BDarken | BColorBurn | BSubtract => True | _ => False end.
Definition lightens (m : blend_mode) : Prop :=
  match m with BScreen | BLighten | BColorDodge | BAddition | BDivide => True | _ => False end.

(** No channel of [p] is above that of [q]. *)
Definition no_lighter (p q : px) : Prop := pr p <= pr q /\ pg p <= pg q /\ pb p <= pb q.

(** The pixel with channels [r], [g], [b] of [p], which are some of [pr], [pg]
    and [pb], in any order and perhaps repeated. *)
Definition is_channel (ch : px -> Z) : Prop := ch = pr \/ ch = pg \/ ch = pb.
Definition rearranged (r g b : px -> Z) (p : px) : px := mkpx (r p) (g p) (b p) (pa p).

(** ** Cels that do not overlap *)
Definition picture_at : Type := (Z * Z) * (Z * Z) * option image * blend_mode * Z.
Definition apart (a b : picture_at) : Prop :=
  let '(ao, az, _, _, _) := a in let '(bo, bz, _, _, _) := b in
  fst ao + fst az <= fst bo \/ fst bo + fst bz <= fst ao \/
  snd ao + snd az <= snd bo \/ snd bo + snd bz <= snd ao.
(** Neighbours that do not overlap are exchanged. *)
Inductive exchanged (l : list picture_at) : list picture_at -> Prop :=
| exchanged_none : exchanged l l
| exchanged_one a x y b : exchanged l (a ++ x :: y :: b) -> apart x y -> exchanged l (a ++ y :: x :: b).

(** ** Copies of a picture *)
(** The picture [b] of the file [f'] is the picture [a] of the file [f], moved
    by [(dx, dy)] and with [phi] applied to all pixels. *)
Definition copied (inflate : inflater) (phi : px -> px) (dx dy : Z) (f f' : file) (a b : picture_at) : Prop :=
  let '(ao, az, ai, am, aop) := a in let '(bo, bz, bi, bm, bop) := b in
  bo = (fst ao + dx, snd ao + dy) /\ bz = az /\ bm = am /\ bop = aop /\
  forall im im' image image', ai = Some im -> bi = Some im' ->
    decoded inflate f im (repeat 0 (Z.to_nat (rgba_size im))) image ->
    decoded inflate f' im' (repeat 0 (Z.to_nat (rgba_size im'))) image' ->
    forall x y, 0 <= x < fst az -> 0 <= y < snd az ->
      pixel (fst az) image' x y = option_map phi (pixel (fst az) image x y).

(** ** Grey *)
Definition grey (p : px) : Prop := pr p = pg p /\ pg p = pb p.
(** A sprite without colours: of depth grayscale, or with a grey palette. *)
Definition grey_sprite (s : ase_file) : Prop :=
  match h_color_depth (f_header (af_file s)) with
  | Grayscale => True
  | Indexed => forall pal, f_palette (af_file s) = Some pal -> Forall (fun x => red x = green x /\ green x = blue x) pal
  | _ => False
  end.
(** Blend modes that turn greys into colours *)
Definition tinting (m : blend_mode) : Prop := In m [BSoftLight; BHue; BSaturation].
