(** UTF-8 as in RFC 3629 / Unicode D92: the encoding of scalar values. *)
From Verif.Model Require Import Base.

(** Unicode scalar value: a code point that is not a surrogate. *)
Definition scalar (c : Z) : Prop := 0 <= c < 0xD800 \/ 0xE000 <= c <= 0x10FFFF.

Definition encode_scalar (c : Z) : bytes :=
  if c <? 0x80 then [c]
  else if c <? 0x800 then [0xC0 + c / 64; 0x80 + c mod 64]
  else if c <? 0x10000 then [0xE0 + c / 4096; 0x80 + c / 64 mod 64; 0x80 + c mod 64]
  else [0xF0 + c / 262144; 0x80 + c / 4096 mod 64; 0x80 + c / 64 mod 64; 0x80 + c mod 64].

(** [s] is the UTF-8 encoding of some sequence of scalar values. *)
Definition is_utf8 (s : bytes) : Prop :=
  exists cs, Forall scalar cs /\ s = flat_map encode_scalar cs.

(** The start of an encoding *)
Definition begins (b : bytes) : Prop := exists c t, scalar c /\ encode_scalar c = b ++ t.

(** The position of a mistake in [s]: the longest part of [s], from its start,
    that is UTF-8 has [p] bytes.  What comes then starts, for the longest part
    [b] possible, like an encoding.  [len] is the length of [b], but at least one, or
    [None] if [s] ends after [b]. *)
Definition utf8_fault (s : bytes) (p : Z) (len : option Z) : Prop :=
  exists u v, s = u ++ v /\ v <> [] /\ zlen u = p /\ is_utf8 u /\
    (forall w x, v = w ++ x -> w <> [] -> ~ is_utf8 (u ++ w)) /\
    exists b t, v = b ++ t /\ begins b /\ (forall y t', t = y :: t' -> ~ begins (b ++ [y])) /\
      len = match t with [] => None | _ => Some (Z.max 1 (zlen b)) end.
