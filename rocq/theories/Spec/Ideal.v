(** Compositing without rounding. *)
From Coq Require Import QArith Qabs.
From Verif.Model Require Import Blend.
From Verif.Spec Require Import BlendSpec.
Local Open Scope Q_scope.

(** A byte as a fraction of 255. *)
Definition unit (z : Z) : Q := z # 255.
(** The alpha that a front contributes, between 0 and 1. *)
Definition strength (front : px) (o : Z) : Q := unit (pa front) * unit o.

(** Source over: the alpha of both together, and a channel times that alpha. *)
Definition ideal_alpha (ab s : Q) : Q := ab + s - ab * s.
Definition ideal_over (cb cf : Z) (ab s : Q) : Q := inject_Z cf * s + inject_Z cb * ab * (1 - s).

(** Source over of the front's channel [cf] mixed with the blend mode's channel
    [cm].  According to the W3C compositing specification the weight [w] of the
    latter is the alpha of the back. *)
Definition ideal_mix (w : Q) (cb cf cm : Z) (ab s : Q) : Q :=
  (1 - w) * ideal_over cb cf ab s + w * ideal_over cb cm ab s.

(** The weight that the crate gives it. *)
Definition weight (ab s : Q) : Q := ab + (1 - ab) * (ab * s).

(** For each channel of the pixels: the channel of [r], times its alpha, lies
    within [k] of the ideal. *)
Definition over_within (k : Q) (back front : px) (s : Q) (r : px) : Prop :=
  forall ch, In ch [pr; pg; pb] ->
    Qabs (inject_Z (ch r) * unit (pa r) - ideal_over (ch back) (ch front) (unit (pa back)) s) < k.
Definition mix_within (k w : Q) (back front p : px) (s : Q) (r : px) : Prop :=
  forall ch, In ch [pr; pg; pb] ->
    Qabs (inject_Z (ch r) * unit (pa r) - ideal_mix w (ch back) (ch front) (ch p) (unit (pa back)) s) < k.
