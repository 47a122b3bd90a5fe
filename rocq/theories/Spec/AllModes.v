(** What a file looks like, with all blend modes. *)
From Verif.Model Require Import Loader.
From Verif.Spec Require Import Bytes BlendSpec HslSpec ImageSpec RenderSpec Composite Loads Looks.

(** [q] is the fraction [o / 255] of the way from [x] to [y], in all four channels. *)
Definition mixed (x y : px) (o : Z) (q : px) : Prop :=
  partway (pr x) (pr y) o (pr q) /\ partway (pg x) (pg y) o (pg q) /\
  partway (pb x) (pb y) o (pb q) /\ partway (pa x) (pa y) o (pa q).

(** Drawing with hue, saturation, colour or luminosity: as [composite], but the
    colour is [unscaled] (C71) and its alpha is [256 - a] instead of [a] (C48), so
    that alphas have to be mixed as well. *)
Definition hsl_composite (m : blend_mode) (back front : px) (o : Z) (r : px) : Prop :=
  exists n, over back front o n /\
    if pa back =? 0 then r = n
    else exists p b t share both, is_px p /\ unscaled m back front p /\ pa p = (256 - pa front) mod 256 /\ over back p o b /\
           rounded (pa front * o) 255 share /\ rounded (pa back * share) 255 both /\
           mixed n b (pa back) t /\ mixed t b both r.

Definition any_composite (m : blend_mode) : px -> px -> Z -> px -> Prop :=
  match m with
  | BHue | BSaturation | BColor | BLuminosity => hsl_composite m
  | _ => composite m
  end.

(** The cels drawn over the pixel [back] at [(x, y)], in this order ([looks] for
    all modes). *)
Inductive appears (inflate : inflater) (f : file) (sel : layer_selection) (x y : Z) : list cel_chunk -> px -> px -> Prop :=
| appears_nil back : appears inflate f sel x y [] back back
| appears_hidden cel cels back r :
    on_layer (file_layers f) sel (cc_layer_index cel) = None ->
    appears inflate f sel x y cels back r -> appears inflate f sel x y (cel :: cels) back r
| appears_beside cel cels im back r :
    picture_of (f_frames f) cel im -> ~ spans cel im x y ->
    appears inflate f sel x y cels back r -> appears inflate f sel x y (cel :: cels) back r
| appears_drawn cel cels im image l front mid back r :
    on_layer (file_layers f) sel (cc_layer_index cel) = Some l ->
    picture_of (f_frames f) cel im -> spans cel im x y ->
    decoded inflate f im (repeat 0 (Z.to_nat (rgba_size im))) image ->
    pixel (im_width im) image (x - cc_x cel) (y - cc_y cel) = Some front ->
    any_composite (ly_blend_mode l) back front (ly_opacity l) mid ->
    appears inflate f sel x y cels mid r -> appears inflate f sel x y (cel :: cels) back r.
