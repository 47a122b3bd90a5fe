(** Functions that nothing in the crate calls (C140). *)
From Coq Require Import Permutation.
From Verif.Model Require Import Enums Blend.
From Verif.Spec Require Import Bytes Format.
From Verif.Proofs Require Import UnusedProps.

(** ** C140 *)
(** [parse_blend_mode] reads two bytes and looks them up (code 19 is the
    deviation of C20), and fails recoverably on shorter inputs. *)
Theorem C140_parse_blend_mode : forall i, is_bytes i ->
  (forall r m, parse_blend_mode i = Ok (r, m) <->
     exists w, u16 w /\ i = le 2 w ++ r /\ m = blend_mode_code w) /\
  ((length i < 2)%nat -> parse_blend_mode i = Err (NError (ENom i KEof))).
Proof. exact blend_mode_parsed. Qed.
Print Assumptions C140_parse_blend_mode.

(** [static_sort3] gives the places of the three channels in ascending order,
    every place once. *)
Theorem C140_sort : forall r g b, is_byte r -> is_byte g -> is_byte b ->
  exists i j k, static_sort3 (f_of_Z r) (f_of_Z g) (f_of_Z b) = (i, j, k) /\
    Permutation [i; j; k] [0; 1; 2]%nat /\
    nth i [r; g; b] 0 <= nth j [r; g; b] 0 <= nth k [r; g; b] 0.
Proof. exact sort3_sorts. Qed.
Print Assumptions C140_sort.

(** The function used in its place gives places of the right values, but not
    every place once if r = g <= b or g = b <= r; for three different channels
    the two agree. *)
Theorem C140_sort_orig : forall r g b, is_byte r -> is_byte g -> is_byte b ->
  exists i j k, static_sort3_orig (f_of_Z r) (f_of_Z g) (f_of_Z b) = (i, j, k) /\
    (i < 3)%nat /\ (j < 3)%nat /\ (k < 3)%nat /\
    nth i [r; g; b] 0 <= nth j [r; g; b] 0 <= nth k [r; g; b] 0 /\
    nth i [r; g; b] 0 + nth j [r; g; b] 0 + nth k [r; g; b] 0 = r + g + b /\
    (Permutation [i; j; k] [0; 1; 2]%nat <-> ~ (r = g /\ g <= b \/ g = b /\ b <= r)) /\
    (r <> g -> g <> b -> r <> b -> static_sort3_orig (f_of_Z r) (f_of_Z g) (f_of_Z b) =
       static_sort3 (f_of_Z r) (f_of_Z g) (f_of_Z b)).
Proof. exact sort3_orig_values. Qed.
Print Assumptions C140_sort_orig.

Example C140_example : parse_blend_mode [18; 0; 7] = Ok ([7], BDivide) /\
  static_sort3 (f_of_Z 200) (f_of_Z 3) (f_of_Z 90) = (1, 2, 0)%nat /\
  static_sort3 (f_of_Z 100) (f_of_Z 100) (f_of_Z 200) = (1, 0, 2)%nat /\
  static_sort3_orig (f_of_Z 100) (f_of_Z 100) (f_of_Z 200) = (1, 1, 2)%nat.
Proof. repeat split; vm_compute; reflexivity. Qed.

(** What the difference does: of two equal lowest channels one keeps its value
    when the saturation is set. *)
Example C140_visible : set_saturation (f_of_Z 100) (f_of_Z 100) (f_of_Z 200) (f_of_Z 50) =
  (f_of_Z 100, f_of_Z 0, f_of_Z 50).
Proof. vm_compute. reflexivity. Qed.
