(** Model of the parser combinators of the [nom] crate (version 8, "complete"
    parsers) used by /repo.  nom itself is not part of /repo; the definitions
    follow its documentation and source.  Cargo.toml:18 pins [nom = "8"]. *)
From Verif.Model Require Export Base.

(** src/binary/palette.rs:133-147 *)
Inductive palette_error :=
| PMissing | PEmpty | PFirstOOB | PLastOOB | PFirstGtLast | PIndexOOB.

(** nom::error::ErrorKind, the kinds that can occur here. *)
Inductive error_kind := KEof | KTag | KMany1.

(** src/binary/errors.rs:10-37.  [EUtf8] has [valid_up_to] and [error_len] of
    [core::str::Utf8Error]. *)
Inductive parse_error :=
| EDwordToUsize (d : Z)
| EInvalidFrameSize (d : Z)
| EInvalidChunkSize (d : Z)
| EUtf8 (valid_up_to : Z) (error_len : option Z)
| EPalette (e : palette_error)
| EInvalidFrameRange (a b : Z)
| ELayerIndexOutOfBounds
| EInvalidPropertyType (w : Z)
| ENom (input : bytes) (k : error_kind).

(** nom::Err; [Incomplete] cannot arise from complete parsers. *)
Inductive nom_err :=
| NError (e : parse_error)
| NFailure (e : parse_error).

(** [ParseResult<'a, O>], src/binary/errors.rs:56. *)
Definition pres A := out nom_err (bytes * A).
Definition parser A := bytes -> pres A.

(** nom::bytes::complete::take *)
Definition take (n : Z) : parser bytes := fun i =>
  if zlen i <? n then Err (NError (ENom i KEof))
  else Ok (skipn (Z.to_nat n) i, firstn (Z.to_nat n) i).

Fixpoint list_eqb (a b : list Z) : bool :=
  match a, b with
  | [], [] => true
  | x :: a', y :: b' => (x =? y) && list_eqb a' b'
  | _, _ => false
  end.

(** nom::bytes::complete::tag *)
Definition tag (t : bytes) : parser bytes := fun i =>
  if list_eqb (firstn (length t) i) t
  then Ok (skipn (length t) i, t)
  else Err (NError (ENom i KTag)).

(** Value of a little endian byte string. *)
Fixpoint le_value (l : bytes) : Z :=
  match l with
  | [] => 0
  | b :: l' => b + 256 * le_value l'
  end.

(** nom::number::complete::le_u8 / le_u16 / le_u32 / le_u64 / le_u128 with
    [n] = 1, 2, 4, 8, 16 bytes. *)
Definition le_uint (n : nat) : parser Z := fun i =>
  if (length i <? n)%nat then Err (NError (ENom i KEof))
  else Ok (skipn n i, le_value (firstn n i)).

(** nom::number::complete::le_i8 / le_i16 / le_i32 / le_i64. *)
Definition le_int (n : nat) : parser Z := fun i =>
  let* (i, z) := le_uint n i in
  Ok (i, to_signed (8 * Z.of_nat n) z).

(** nom::combinator::map *)
Definition pmap {A B} (p : parser A) (f : A -> B) : parser B := fun i =>
  let* (i, a) := p i in Ok (i, f a).

(** nom::combinator::flat_map *)
Definition flat_map_p {A B} (p : parser A) (f : A -> parser B) : parser B := fun i =>
  let* (i, a) := p i in f a i.

(** nom::combinator::cond *)
Definition cond {A} (b : bool) (p : parser A) : parser (option A) := fun i =>
  if b then pmap p Some i else Ok (i, None).

(** nom::multi::count.  [FromError::append] (src/binary/errors.rs:45-47) keeps
    the inner error unchanged, so errors pass through. *)
Fixpoint count_nat {A} (p : parser A) (n : nat) : parser (list A) := fun i =>
  match n with
  | O => Ok (i, [])
  | S n' =>
      let* (i, a) := p i in
      let* (i, l) := count_nat p n' i in
      Ok (i, a :: l)
  end.
Definition count {A} (p : parser A) (n : Z) : parser (list A) :=
  count_nat p (Z.to_nat n).

(** The loop of nom::multi::many1 after the first element: a recoverable
    [Error] ends the repetition, a [Failure] aborts, and a parser that consumes
    nothing is an error (ErrorKind::Many1).  One unit of fuel per iteration. *)
Fixpoint many_loop {A} (p : parser A) (fuel : nat) (acc : list A) : parser (list A) := fun i =>
  match fuel with
  | O => Panic PFuel
  | S fuel' =>
      match p i with
      | Err (NError _) => Ok (i, rev acc)
      | Err (NFailure e) => Err (NFailure e)
      | Panic q => Panic q
      | Ok (i', a) =>
          if (length i' =? length i)%nat then Err (NError (ENom i KMany1))
          else many_loop p fuel' (a :: acc) i'
      end
  end.

(** nom::multi::many1.  Every iteration of the loop consumes input, hence the
    input length bounds the number of iterations. *)
Definition many1 {A} (p : parser A) : parser (list A) := fun i =>
  match p i with
  | Err e => Err e
  | Panic q => Panic q
  | Ok (i', a) => many_loop p (S (length i')) [a] i'
  end.

(** nom::combinator::all_consuming *)
Definition all_consuming {A} (p : parser A) : parser A := fun i =>
  let* (i, a) := p i in
  match i with
  | [] => Ok (i, a)
  | _ :: _ => Err (NError (ENom i KEof))
  end.

(** nom::combinator::complete: turns [Incomplete] into an error; the parsers
    here never return [Incomplete]. *)
Definition complete {A} (p : parser A) : parser A := p.

(** [Result<A, nom::Err<..>>] from a failing constructor. *)
Definition failure {A} (e : parse_error) : out nom_err A := Err (NFailure e).
