(** Byte level vocabulary of the specifications.  Independent of the parsers. *)
From Verif.Model Require Import Base.

Definition is_byte (b : Z) : Prop := 0 <= b < 256.
(** What the Rust type [&[u8]] guarantees. *)
Definition is_bytes (l : bytes) : Prop := Forall is_byte l.

(** [v] fits [n] bytes, unsigned / two's complement. *)
Definition uint (n : nat) (v : Z) : Prop := 0 <= v < 256 ^ Z.of_nat n.
Definition sint (n : nat) (v : Z) : Prop :=
  - (256 ^ Z.of_nat n / 2) <= v < 256 ^ Z.of_nat n / 2.

(** Little endian encoding on [n] bytes. *)
Fixpoint le (n : nat) (v : Z) : bytes :=
  match n with
  | O => []
  | S n' => v mod 256 :: le n' (v / 256)
  end.
(** Little endian two's complement encoding on [n] bytes. *)
Definition les (n : nat) (v : Z) : bytes := le n (v mod 256 ^ Z.of_nat n).

(** [s] is a contiguous piece of [i]. *)
Definition infix (s i : bytes) : Prop := exists before after, i = before ++ s ++ after.

(** The pointer widths the crate compiles for (nom needs 32 or 64 bit). *)
Definition cfg_ok (c : cfg) : Prop := usize_bits c = 32 \/ usize_bits c = 64.

(** Rust slices have at most [isize::MAX] bytes. *)
Definition addressable (c : cfg) (i : bytes) : Prop := zlen i < 2 ^ (usize_bits c - 1).

(** The [n] bytes of [i] at offset [off]. *)
Definition field (i : bytes) (off n : nat) : bytes := firstn n (skipn off i).
