(** Concrete build configurations for examples. *)
From Verif.Model Require Import Base.
Definition dbg64 : cfg := {| debug := true; usize_bits := 64 |}.
Definition rel64 : cfg := {| debug := false; usize_bits := 64 |}.
Definition dbg32 : cfg := {| debug := true; usize_bits := 32 |}.
Definition rel32 : cfg := {| debug := false; usize_bits := 32 |}.
