(** A frame that is rendered first and put on its background later. *)
From Coq Require Import QArith Qabs.
From Verif.Model Require Import Loader.
From Verif.Spec Require Import Bytes BlendSpec Ideal.
Local Open Scope Q_scope.

(** The alphas differ by at most [j], the channels times alpha by at most [k]. *)
Definition near (j k : Q) (p q : px) : Prop :=
  Qabs (inject_Z (pa p) - inject_Z (pa q)) <= j /\
  forall ch, In ch [pr; pg; pb] -> Qabs (inject_Z (ch p) * unit (pa p) - inject_Z (ch q) * unit (pa q)) <= k.
