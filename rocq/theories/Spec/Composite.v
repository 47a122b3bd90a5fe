(** Compositing with any alpha, and what a drawing looks like. *)
From Verif.Model Require Import Loader.
From Verif.Spec Require Import Bytes BlendSpec RenderSpec Drawing.

(** [front] drawn with opacity [o] over [back]: the alpha is that of both
    together, rounded; each channel moves by the front's share of it, rounded
    towards the back.  Over nothing, only the front counts. *)
Definition over (back front : px) (o : Z) (r : px) : Prop :=
  exists share, rounded (pa front * o) 255 share /\
    if pa back =? 0 then r = mkpx (pr front) (pg front) (pb front) share
    else if pa front =? 0 then r = back
    else rounded (255 * (share + pa back) - share * pa back) 255 (pa r) /\
      pr r = pr back + Z.quot ((pr front - pr back) * share) (pa r) /\
      pg r = pg back + Z.quot ((pg front - pg back) * share) (pa r) /\
      pb r = pb back + Z.quot ((pb front - pb back) * share) (pa r).

(** [q] is the fraction [o / 255] of the way from [x] to [y], rounded, except
    for the falling steps of C43. *)
Definition partway (x y o q : Z) : Prop :=
  if (y <? x) && (((x - y) * o) mod 255 =? 128) then 255 * (q - x) = (y - x) * o + 128
  else rounded ((y - x) * o) 255 (q - x).
Definition px_partway (x y : px) (o : Z) (q : px) : Prop :=
  partway (pr x) (pr y) o (pr q) /\ partway (pg x) (pg y) o (pg q) /\ partway (pb x) (pb y) o (pb q) /\ pa q = pa x.

(** The colour of the mode's formula (C46), with the front's alpha.  Soft light
    takes the blue of the front from the back (C47). *)
Definition mode_colour (m : blend_mode) (back front p : px) : Prop :=
  formula m (pr back) (pr front) (pr p) /\ formula m (pg back) (pg front) (pg p) /\
  formula m (pb back) (match m with BSoftLight => pb back | _ => pb front end) (pb p) /\ pa p = pa front.

(** Drawing with mode [m]: from the normal result [n] towards the result [b] for
    the mode's colour, first by the back's alpha, then by that of both. *)
Definition composite (m : blend_mode) (back front : px) (o : Z) (r : px) : Prop :=
  exists n, over back front o n /\
    if pa back =? 0 then r = n
    else match m with
         | BNormal => r = n
         | _ => exists p b t share both, mode_colour m back front p /\ over back p o b /\
                  rounded (pa front * o) 255 share /\ rounded (pa back * share) 255 both /\
                  px_partway n b (pa back) t /\ px_partway t b both r
         end.

(** ** Drawings *)
(** Whether a picture of layer [k] is drawn, and on which layer. *)
Definition on_layer (ls : list layer) (sel : layer_selection) (k : Z) : option layer :=
  match nth_error ls (Z.to_nat k) with
  | Some l => match ly_layer_type l with
              | LGroup => None
              | _ => if chosen sel k l then Some l else None
              end
  | None => None
  end.
Definition inside (p : picture) (x y : Z) : bool :=
  (fst (pic_origin p) <=? x) && (x <? fst (pic_origin p) + fst (pic_size p)) &&
  (snd (pic_origin p) <=? y) && (y <? snd (pic_origin p) + snd (pic_size p)).

(** The pictures drawn over the pixel [back] at [(x, y)], from the lowest layer up. *)
Inductive painted (m : colours) (ls : list layer) (sel : layer_selection) (x y : Z) : list (Z * picture) -> px -> px -> Prop :=
| painted_nil back : painted m ls sel x y [] back back
| painted_skip k p ps back r :
    on_layer ls sel k = None \/ inside p x y = false ->
    painted m ls sel x y ps back r -> painted m ls sel x y ((k, p) :: ps) back r
| painted_draw k p ps back l front mid r :
    on_layer ls sel k = Some l -> inside p x y = true ->
    pixel (fst (pic_size p)) (as_rgba m (pic_pixels p)) (x - fst (pic_origin p)) (y - snd (pic_origin p)) = Some front ->
    composite (ly_blend_mode l) back front (ly_opacity l) mid ->
    painted m ls sel x y ps mid r -> painted m ls sel x y ((k, p) :: ps) back r.
