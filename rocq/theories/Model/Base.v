(** Outcomes, build configuration and machine arithmetic used by the whole model.

    This file models no function of /repo by itself: it fixes how Rust results,
    panics and fixed-width integers are represented.  *)
From Coq Require Export ZArith List Bool Lia.
Export ListNotations.
Open Scope Z_scope.

(** A Rust byte slice [&[u8]] is a list of integers; [is_bytes] (Spec/Bytes.v)
    states that all elements are in 0..255. *)
Definition bytes := list Z.

(** Why the program aborted.  Each constructor is one kind of Rust panic. *)
Inductive panic :=
| PIndex          (* slice / array index out of bounds *)
| POverflow       (* arithmetic overflow (debug builds only) *)
| PAssert         (* assert! / assert_eq! *)
| PDebugAssert    (* debug_assert! (debug builds only) *)
| PUnwrap         (* Result::unwrap on Err *)
| PCopyLen        (* copy_from_slice with different lengths *)
| PDivZero        (* integer division by zero *)
| PExplicit       (* panic!(..) *)
| PUnreachable    (* unreachable!() *)
| PMapKey         (* HashMap index with a missing key *)
| PCapacity       (* Vec longer than isize::MAX *)
| PFuel.          (* model only: recursion fuel exhausted; proved impossible *)

(** The outcome of a Rust function returning [Result<A, E>]. *)
Inductive out (E A : Type) :=
| Ok (a : A)
| Err (e : E)
| Panic (p : panic).
Arguments Ok {E A} a.
Arguments Err {E A} e.
Arguments Panic {E A} p.

(** Rust's [?] operator. *)
Definition bind {E A B} (m : out E A) (k : A -> out E B) : out E B :=
  match m with
  | Ok a => k a
  | Err e => Err e
  | Panic p => Panic p
  end.

Notation "'let*' p ':=' c1 'in' c2" := (bind c1 (fun p => c2))
  (at level 61, p as pattern, c1 at next level, right associativity).

(** [Result::map_err]. *)
Definition map_err {E F A} (f : E -> F) (m : out E A) : out F A :=
  match m with
  | Ok a => Ok a
  | Err e => Err (f e)
  | Panic p => Panic p
  end.

(** Build configuration: [debug] is the default [dev] profile (overflow checks
    and debug assertions on), [usize_bits] the pointer width of the target. *)
Record cfg := { debug : bool; usize_bits : Z }.

(** Fixed-width arithmetic: a mathematically exact result [z] outside
    [lo .. lo + 2^w - 1] panics in debug builds and wraps in release builds. *)
Definition wrap (lo w z : Z) : Z := lo + (z - lo) mod 2 ^ w.
Definition checked {E} (c : cfg) (lo w z : Z) : out E Z :=
  if (lo <=? z) && (z <? lo + 2 ^ w) then Ok z
  else if debug c then Panic POverflow
  else Ok (wrap lo w z).

Definition i32c {E} (c : cfg) (z : Z) : out E Z := checked c (- 2 ^ 31) 32 z.
Definition u8c {E} (c : cfg) (z : Z) : out E Z := checked c 0 8 z.
Definition u32c {E} (c : cfg) (z : Z) : out E Z := checked c 0 32 z.
Definition usizec {E} (c : cfg) (z : Z) : out E Z := checked c 0 (usize_bits c) z.

(** [as u8] on an integer. *)
Definition as_u8 (z : Z) : Z := z mod 256.

(** Two's complement reinterpretation of a [w]-bit pattern. *)
Definition to_signed (w z : Z) : Z := if z <? 2 ^ (w - 1) then z else z - 2 ^ w.

Definition zlen {A} (l : list A) : Z := Z.of_nat (length l).

(** [for .. in items { body }] with [?]/panics in the body. *)
Fixpoint fold_out {E A B} (f : A -> B -> out E A) (l : list B) (a : A) : out E A :=
  match l with
  | [] => Ok a
  | b :: l' => let* a' := f a b in fold_out f l' a'
  end.

(** [iter.map(f).collect::<Result<Vec<_>, _>>()]. *)
Fixpoint map_out {E A B} (f : A -> out E B) (l : list A) : out E (list B) :=
  match l with
  | [] => Ok []
  | a :: l' => let* b := f a in let* bs := map_out f l' in Ok (b :: bs)
  end.

(** [v[i] = x] on a list already known to be long enough. *)
Fixpoint upd {A} (l : list A) (i : nat) (x : A) : list A :=
  match l, i with
  | [], _ => []
  | _ :: l', O => x :: l'
  | y :: l', S i' => y :: upd l' i' x
  end.

(** [0..n] for a [u16]/[usize] bound. *)
Definition zrange (n : Z) : list Z := map Z.of_nat (seq 0 (Z.to_nat n)).
