(** Canvases and pictures that differ. *)
From Verif.Model Require Import Loader.
From Verif.Spec Require Import Bytes BlendSpec ImageSpec RenderSpec.

(** The modes that do not enlarge differences of the backdrop *)
Definition gentle (m : blend_mode) : Prop :=
  match m with
  | BNormal | BMultiply | BScreen | BDarken | BLighten | BHardLight | BDifference | BExclusion | BAddition | BSubtract => True
  | _ => False
  end.
(** ... nor differences of backdrop and front together *)
Definition calm (m : blend_mode) : Prop := match m with BNormal | BDarken | BLighten => True | _ => False end.
(** The modes that give lighter results over lighter backdrops *)
Definition rising (m : blend_mode) : Prop :=
  match m with
  | BNormal | BMultiply | BScreen | BOverlay | BDarken | BLighten | BColorDodge | BColorBurn | BHardLight
  | BSoftLight | BAddition | BSubtract | BDivide => True
  | _ => False
  end.
(** ... and with lighter fronts *)
Definition ascending (m : blend_mode) : Prop := match m with BSubtract | BDivide => False | _ => rising m end.

(** The alphas are equal, the channels differ by at most [d]. *)
Definition within (d : Z) (p q : px) : Prop :=
  pa p = pa q /\ Z.abs (pr p - pr q) <= d /\ Z.abs (pg p - pg q) <= d /\ Z.abs (pb p - pb q) <= d.
(** The alphas are equal, no channel of [q] is darker. *)
Definition lighter (p q : px) : Prop := pa p = pa q /\ pr p <= pr q /\ pg p <= pg q /\ pb p <= pb q.

(** Every pixel of the canvas *)
Definition canvas_rel (s : ase_file) (R : px -> px -> Prop) (t t' : bytes) : Prop :=
  forall x y p q, 0 <= x < canvas_width s -> 0 <= y < canvas_height s ->
    pixel (canvas_width s) t x y = Some p -> pixel (canvas_width s) t' x y = Some q -> R p q.

(** The cels are at the same place, on layers of the same mode and opacity, and
    their pictures are the same or, for some modes, differ by at most [d]. *)
Definition resembles (d : Z) (inflate : inflater) (s s' : ase_file) (sel sel' : layer_selection) (cel cel' : frame_cel) : Prop :=
  fc_origin cel' = fc_origin cel /\ fc_size cel' = fc_size cel /\
  match drawn s sel cel, drawn s' sel' cel' with
  | Some l, Some l' =>
      ly_blend_mode l' = ly_blend_mode l /\ ly_opacity l' = ly_opacity l /\
      forall image image', cel_image inflate s cel image -> cel_image inflate s' cel' image' ->
        (image' = image /\ gentle (ly_blend_mode l)) \/
        (calm (ly_blend_mode l) /\ forall x y p q, pixel (fst (fc_size cel)) image x y = Some p ->
           pixel (fst (fc_size cel)) image' x y = Some q -> within d p q)
  | None, None => True
  | _, _ => False
  end.

(** The same for pictures of which the second is lighter *)
Definition outshone (inflate : inflater) (s s' : ase_file) (sel sel' : layer_selection) (cel cel' : frame_cel) : Prop :=
  fc_origin cel' = fc_origin cel /\ fc_size cel' = fc_size cel /\
  match drawn s sel cel, drawn s' sel' cel' with
  | Some l, Some l' =>
      ly_blend_mode l' = ly_blend_mode l /\ ly_opacity l' = ly_opacity l /\
      forall image image', cel_image inflate s cel image -> cel_image inflate s' cel' image' ->
        (image' = image /\ rising (ly_blend_mode l)) \/
        (ascending (ly_blend_mode l) /\ forall x y p q, pixel (fst (fc_size cel)) image x y = Some p ->
           pixel (fst (fc_size cel)) image' x y = Some q -> lighter p q)
  | None, None => True
  | _, _ => False
  end.
