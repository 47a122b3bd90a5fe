(** Files that end after some of their frames. *)
From Verif.Model Require Import Loader.
From Verif.Spec Require Import Bytes.

(** The first [n] frames have no links to later ones. *)
Definition self_contained (n : nat) (fs : list frame) : Prop :=
  forall k fr x p, (k < n)%nat -> nth_error fs k = Some fr -> In (Some x) (fr_cels fr) -> cc_content x = CLinked p -> p < Z.of_nat n.
