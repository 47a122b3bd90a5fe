(** The alphas of pictures. *)
From Verif.Model Require Import Loader.
From Verif.Spec Require Import Bytes BlendSpec.

(** What lies at a pixel covers it: of the alpha that remains to full opacity,
    each layer takes its share, with roundings.  From the alpha [a] of what is
    below to the alpha [r] of everything. *)
Inductive covering : list (px * blend_mode * Z) -> Z -> Z -> Prop :=
| covering_nil a : covering [] a a
| covering_cons front m o ts a share both r :
    rounded (pa front * o) 255 share -> rounded (a * share) 255 both ->
    covering ts (a + share - both) r -> covering ((front, m, o) :: ts) a r.

Definition separable_ones (ts : list (px * blend_mode * Z)) : Prop :=
  Forall (fun t => match t with (_, m, _) => separable m end) ts.

(** Modes that treat alphas alike. *)
Definition akin (m m' : blend_mode) : Prop := separable m /\ separable m' \/ hsl m /\ hsl m'.
(** Layers whose colours may differ. *)
Definition same_veil (t t' : px * blend_mode * Z) : Prop :=
  match t, t' with (p, m, o), (q, m', o') => pa p = pa q /\ akin m m' /\ o = o' end.
