(** std's [DefaultHasher], which [combined_frame_image] uses (loader/mod.rs:272-280):
    SipHash 1-3 with both keys 0 over the bytes written to it.  Not part of the
    repository; written from the description of SipHash (Aumasson, Bernstein 2012). *)
From Verif.Model Require Export Loader.

(** [u64] arithmetic *)
Definition add64 (a b : Z) : Z := (a + b) mod 2 ^ 64.
Definition rotl64 (a : Z) (n : Z) : Z := Z.lor (Z.shiftl a n mod 2 ^ 64) (Z.shiftr a (64 - n)).

Record sip := { v0 : Z; v1 : Z; v2 : Z; v3 : Z }.

Definition sip_round (s : sip) : sip :=
  let a0 := add64 (v0 s) (v1 s) in
  let a2 := add64 (v2 s) (v3 s) in
  let a1 := Z.lxor (rotl64 (v1 s) 13) a0 in
  let a3 := Z.lxor (rotl64 (v3 s) 16) a2 in
  let a0 := rotl64 a0 32 in
  let b2 := add64 a2 a1 in
  let b0 := add64 a0 a3 in
  let b1 := Z.lxor (rotl64 a1 17) b2 in
  let b3 := Z.lxor (rotl64 a3 21) b0 in
  {| v0 := b0; v1 := b1; v2 := rotl64 b2 32; v3 := b3 |}.

Definition sip_word (s : sip) (m : Z) : sip :=
  let s := sip_round {| v0 := v0 s; v1 := v1 s; v2 := v2 s; v3 := Z.lxor (v3 s) m |} in
  {| v0 := Z.lxor (v0 s) m; v1 := v1 s; v2 := v2 s; v3 := v3 s |}.

(** Words of eight bytes, little endian; the last one holds fewer than eight
    bytes and, in its highest byte, the length of everything modulo 256. *)
Fixpoint sip_words (s : sip) (len : Z) (l : bytes) : sip :=
  match l with
  | a :: b :: c :: d :: e :: f :: g :: h :: l' => sip_words (sip_word s (le_value [a; b; c; d; e; f; g; h])) len l'
  | _ => sip_word s (le_value l + len mod 256 * 2 ^ 56)
  end.

Definition siphash13 (k0 k1 : Z) (l : bytes) : Z :=
  let s := {| v0 := Z.lxor k0 0x736f6d6570736575; v1 := Z.lxor k1 0x646f72616e646f6d;
              v2 := Z.lxor k0 0x6c7967656e657261; v3 := Z.lxor k1 0x7465646279746573 |} in
  let s := sip_words s (zlen l) l in
  let s := {| v0 := v0 s; v1 := v1 s; v2 := Z.lxor (v2 s) 255; v3 := v3 s |} in
  let s := sip_round (sip_round (sip_round s)) in
  Z.lxor (Z.lxor (v0 s) (v1 s)) (Z.lxor (v2 s) (v3 s)).

(** [to_ne_bytes] of an integer of [n] bytes on a little endian target. *)
Fixpoint to_le_bytes (n : nat) (z : Z) : bytes :=
  match n with
  | O => []
  | S n' => z mod 256 :: to_le_bytes n' (z / 256)
  end.
(** [Hasher::write_usize], [write_i16], [write_u16] write these bytes. *)
Definition hwrite_bytes (c : cfg) (w : hwrite) : bytes :=
  match w with
  | HUsize z => to_le_bytes (Z.to_nat (usize_bits c / 8)) z
  | HI16 z => to_le_bytes 2 z
  | HU16 z => to_le_bytes 2 z
  end.
Definition default_hasher (c : cfg) (ws : list hwrite) : Z := siphash13 0 0 (flat_map (hwrite_bytes c) ws).
