(** Model of [core::str::from_utf8] (run-time library, used by
    src/binary/scalars.rs:136), following the library's [run_utf8_validation].
    The library's fast path for ASCII, which looks at two machine words at a
    time, gives the same result and is left out. *)
From Verif.Model Require Export Base.

Definition in_range (lo hi b : Z) : bool := (lo <=? b) && (b <=? hi).
Definition cont (b : Z) : bool := in_range 128 191 b.
(** Second bytes of sequences of three and of four bytes *)
Definition second3 (a b : Z) : bool :=
  ((a =? 224) && in_range 160 191 b) || (in_range 225 236 a && cont b)
  || ((a =? 237) && in_range 128 159 b) || (in_range 238 239 a && cont b).
Definition second4 (a b : Z) : bool :=
  ((a =? 240) && in_range 144 191 b) || (in_range 241 243 a && cont b)
  || ((a =? 244) && in_range 128 143 b).

(** [Utf8Error]: [valid_up_to] and [error_len]; [n] bytes have been read. *)
Fixpoint utf8_error (n : Z) (l : bytes) : option (Z * option Z) :=
  match l with
  | [] => None
  | a :: l1 =>
      if in_range 0 127 a then utf8_error (n + 1) l1
      else if in_range 194 223 a then
        match l1 with
        | [] => Some (n, None)
        | b :: l2 => if cont b then utf8_error (n + 2) l2 else Some (n, Some 1)
        end
      else if in_range 224 239 a then
        match l1 with
        | [] => Some (n, None)
        | b :: l2 =>
            if second3 a b then
              match l2 with
              | [] => Some (n, None)
              | c :: l3 => if cont c then utf8_error (n + 3) l3 else Some (n, Some 2)
              end
            else Some (n, Some 1)
        end
      else if in_range 240 244 a then
        match l1 with
        | [] => Some (n, None)
        | b :: l2 =>
            if second4 a b then
              match l2 with
              | [] => Some (n, None)
              | c :: l3 =>
                  if cont c then
                    match l3 with
                    | [] => Some (n, None)
                    | d :: l4 => if cont d then utf8_error (n + 4) l4 else Some (n, Some 3)
                    end
                  else Some (n, Some 2)
              end
            else Some (n, Some 1)
        end
      else Some (n, Some 1)
  end.

Definition from_utf8 (s : bytes) : option (Z * option Z) := utf8_error 0 s.
