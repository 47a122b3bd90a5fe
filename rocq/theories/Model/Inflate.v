(** A decompressor for zlib streams, written from RFC 1950 and RFC 1951.

    It stands for [flate2::Decompress::new(true).decompress(data, target, Finish)],
    called once with the whole input (mod.rs:450-457).  The decompressor is a
    dependency and not part of /repo: all properties hold for every
    [inflate : inflater] (with the contract [inflate_ok] where stated).  This
    one shows that the contract can be met, lets the compressed test files of
    /repo be evaluated, and gives statements without an oracle (C65).

    Simplification: what is written to the output before an error is found may
    differ from what flate2 writes. *)
From Verif.Model Require Import Loader.

(** ** Bits, least significant bit of a byte first (RFC 1951, 3.1.1) *)
Fixpoint byte_bits (n : nat) (z : Z) : list bool :=
  match n with
  | O => []
  | S n' => Z.odd z :: byte_bits n' (z / 2)
  end.
Definition bits_of (l : bytes) : list bool := flat_map (byte_bits 8) l.

(** [Short]: the input ended; [Bad]: no valid stream. *)
Inductive got (A : Type) :=
| Got (a : A) (rest : list bool)
| Short
| Bad.
Arguments Got {A} a rest.
Arguments Short {A}.
Arguments Bad {A}.

Fixpoint take_bits (n : nat) (b : list bool) : got Z :=
  match n with
  | O => Got 0 b
  | S n' =>
      match b with
      | [] => Short
      | x :: b' =>
          match take_bits n' b' with
          | Got v r => Got (Z.b2z x + 2 * v) r
          | Short => Short
          | Bad => Bad
          end
      end
  end.

(** ** Canonical Huffman codes (RFC 1951, 3.2.2)

    The symbols by code length, 1 to 15. *)
Definition code_table := list (list Z).
Definition make_table (lengths : list Z) : code_table :=
  map (fun k => map fst (filter (fun '(_, n) => n =? k) (enumerate lengths)))
    [1; 2; 3; 4; 5; 6; 7; 8; 9; 10; 11; 12; 13; 14; 15].

(** Codes still free after each length; negative if there are too many. *)
Fixpoint codes_left (free : Z) (t : code_table) : option Z :=
  match t with
  | [] => Some free
  | syms :: t' =>
      let free := 2 * free - zlen syms in
      if free <? 0 then None else codes_left free t'
  end.
(** A code is complete, or has at most one symbol. *)
Definition table_ok (t : code_table) : bool :=
  match codes_left 1 t with
  | None => false
  | Some free => (free =? 0) || (zlen (concat t) <=? 1)
  end.

(** [code] are the bits read so far, [first] the first code of their length. *)
Fixpoint decode_symbol (t : code_table) (code first : Z) (b : list bool) : got Z :=
  match t with
  | [] => Bad
  | syms :: t' =>
      match b with
      | [] => Short
      | x :: b' =>
          let code := 2 * code + Z.b2z x in
          let first := 2 * first in
          match (if code <? first then None else nth_error syms (Z.to_nat (code - first))) with
          | Some s => Got s b'
          | None => decode_symbol t' code (first + zlen syms) b'
          end
      end
  end.

(** ** Output

    [z_out] in reverse; [z_room] is what remains of the target. *)
Record zout := { z_out : bytes; z_room : Z }.
(** [Full]: the output has no more room. *)
Inductive zstep :=
| Going (o : zout) (b : list bool)
| Stopped (s : zstatus) (o : zout).

Definition emit (o : zout) (v : Z) : option zout :=
  if z_room o <=? 0 then None else Some {| z_out := v :: z_out o; z_room := z_room o - 1 |}.

(** Repeat [n] bytes from [distance] bytes back, which may overlap. *)
Fixpoint copy_back (n : nat) (distance : nat) (o : zout) (b : list bool) : zstep :=
  match n with
  | O => Going o b
  | S n' =>
      match nth_error (z_out o) distance with
      | None => Stopped ZError o
      | Some v =>
          match emit o v with
          | None => Stopped ZBufError o
          | Some o' => copy_back n' distance o' b
          end
      end
  end.

Definition stop {A} (g : got A) (o : zout) (k : A -> list bool -> zstep) : zstep :=
  match g with
  | Got a b => k a b
  | Short => Stopped ZBufError o
  | Bad => Stopped ZError o
  end.

(** ** Compressed blocks (RFC 1951, 3.2.5): base value and extra bits *)
Definition length_codes : list (Z * nat) :=
  [(3, 0%nat); (4, 0%nat); (5, 0%nat); (6, 0%nat); (7, 0%nat); (8, 0%nat); (9, 0%nat);
   (10, 0%nat); (11, 1%nat); (13, 1%nat); (15, 1%nat); (17, 1%nat); (19, 2%nat); (23, 2%nat);
   (27, 2%nat); (31, 2%nat); (35, 3%nat); (43, 3%nat); (51, 3%nat); (59, 3%nat); (67, 4%nat);
   (83, 4%nat); (99, 4%nat); (115, 4%nat); (131, 5%nat); (163, 5%nat); (195, 5%nat);
   (227, 5%nat); (258, 0%nat)].
Definition distance_codes : list (Z * nat) :=
  [(1, 0%nat); (2, 0%nat); (3, 0%nat); (4, 0%nat); (5, 1%nat); (7, 1%nat); (9, 2%nat);
   (13, 2%nat); (17, 3%nat); (25, 3%nat); (33, 4%nat); (49, 4%nat); (65, 5%nat); (97, 5%nat);
   (129, 6%nat); (193, 6%nat); (257, 7%nat); (385, 7%nat); (513, 8%nat); (769, 8%nat);
   (1025, 9%nat); (1537, 9%nat); (2049, 10%nat); (3073, 10%nat); (4097, 11%nat);
   (6145, 11%nat); (8193, 12%nat); (12289, 12%nat); (16385, 13%nat); (24577, 13%nat)].

(** A base value plus extra bits. *)
Definition extended (codes : list (Z * nat)) (k : Z) (b : list bool) : got Z :=
  match nth_error codes (Z.to_nat k) with
  | None => Bad
  | Some (base, extra) =>
      match take_bits extra b with
      | Got v r => Got (base + v) r
      | Short => Short
      | Bad => Bad
      end
  end.

(** Symbols up to the end of the block.  Every symbol takes a bit, so [fuel],
    the bits of the whole block, lasts. *)
Fixpoint symbols (fuel : list bool) (lit dist : code_table) (o : zout) (b : list bool) : zstep :=
  match fuel with
  | [] => Stopped ZBufError o
  | _ :: fuel' =>
      stop (decode_symbol lit 0 0 b) o (fun s b =>
      if s <? 256 then
        match emit o s with
        | None => Stopped ZBufError o
        | Some o' => symbols fuel' lit dist o' b
        end
      else if s =? 256 then Going o b
      else
        stop (extended length_codes (s - 257) b) o (fun n b =>
        stop (decode_symbol dist 0 0 b) o (fun d b =>
        stop (extended distance_codes d b) o (fun d b =>
        match copy_back (Z.to_nat n) (Z.to_nat (d - 1)) o b with
        | Going o' b' => symbols fuel' lit dist o' b'
        | Stopped s o' => Stopped s o'
        end))))
  end.

(** RFC 1951, 3.2.6 *)
Definition fixed_lit : code_table :=
  make_table (repeat 8 144 ++ repeat 9 112 ++ repeat 7 24 ++ repeat 8 8).
Definition fixed_dist : code_table := make_table (repeat 5 30).

(** RFC 1951, 3.2.7: [n] code lengths of the code lengths' code, in this order. *)
Definition length_order : list Z :=
  [16; 17; 18; 0; 8; 7; 9; 6; 10; 5; 11; 4; 12; 3; 13; 2; 14; 1; 15].
Fixpoint take_lengths (order : list Z) (n : nat) (b : list bool) : got (list (Z * Z)) :=
  match n, order with
  | S n', k :: order' =>
      match take_bits 3 b with
      | Got v b =>
          match take_lengths order' n' b with
          | Got l b => Got ((k, v) :: l) b
          | Short => Short
          | Bad => Bad
          end
      | Short => Short
      | Bad => Bad
      end
  | _, _ => Got [] b
  end.
Definition length_of (l : list (Z * Z)) (k : Z) : Z :=
  match find (fun '(j, _) => j =? k) l with
  | Some (_, v) => v
  | None => 0
  end.
Definition length_lengths (l : list (Z * Z)) : list Z :=
  map (length_of l) [0; 1; 2; 3; 4; 5; 6; 7; 8; 9; 10; 11; 12; 13; 14; 15; 16; 17; 18].

(** [n] code lengths; [acc] are those read so far, in reverse. *)
Fixpoint code_lengths (fuel : list bool) (t : code_table) (n : Z) (acc : list Z) (b : list bool)
    : got (list Z) :=
  if n =? 0 then Got (rev acc) b else
  if n <? 0 then Bad else
  match fuel with
  | [] => Short
  | _ :: fuel' =>
      match decode_symbol t 0 0 b with
      | Got s b =>
          if s <? 16 then code_lengths fuel' t (n - 1) (s :: acc) b else
          let '(what, extra, base) :=
            if s =? 16 then (match acc with x :: _ => Some x | [] => None end, 2%nat, 3)
            else if s =? 17 then (Some 0, 3%nat, 3)
            else (Some 0, 7%nat, 11) in
          match what, take_bits extra b with
          | None, _ => Bad
          | Some x, Got v b =>
              code_lengths fuel' t (n - (base + v)) (repeat x (Z.to_nat (base + v)) ++ acc) b
          | _, Short => Short
          | _, Bad => Bad
          end
      | Short => Short
      | Bad => Bad
      end
  end.

Definition dynamic_tables (b : list bool) : got (code_table * code_table) :=
  match take_bits 14 b with
  | Got v b =>
      let hlit := v mod 32 + 257 in
      let hdist := v / 32 mod 32 + 1 in
      let hclen := v / 1024 + 4 in
      if (286 <? hlit) || (30 <? hdist) then Bad else
      match take_lengths length_order (Z.to_nat hclen) b with
      | Got l b =>
          let t := make_table (length_lengths l) in
          if negb (table_ok t) then Bad else
          match code_lengths b t (hlit + hdist) [] b with
          | Got ls b =>
              let lit := make_table (firstn (Z.to_nat hlit) ls) in
              let dist := make_table (skipn (Z.to_nat hlit) ls) in
              if table_ok lit && table_ok dist && negb (nth 256 ls 0 =? 0)
              then Got (lit, dist) b else Bad
          | Short => Short
          | Bad => Bad
          end
      | Short => Short
      | Bad => Bad
      end
  | Short => Short
  | Bad => Bad
  end.

(** ** Stored blocks (RFC 1951, 3.2.4) *)
Fixpoint stored_bytes (fuel : list bool) (n : Z) (o : zout) (b : list bool) : zstep :=
  if n <=? 0 then Going o b else
  match fuel with
  | [] => Stopped ZBufError o
  | _ :: fuel' =>
      stop (take_bits 8 b) o (fun v b =>
      match emit o v with
      | None => Stopped ZBufError o
      | Some o' => stored_bytes fuel' (n - 1) o' b
      end)
  end.
(** The rest of the current byte is skipped. *)
Definition stored_block (o : zout) (b : list bool) : zstep :=
  let b := skipn (length b mod 8) b in
  stop (take_bits 16 b) o (fun n b =>
  stop (take_bits 16 b) o (fun m b =>
  if n + m =? 65535 then stored_bytes b n o b else Stopped ZError o)).

(** ** Blocks (RFC 1951, 3.2.3) *)
Fixpoint blocks (fuel : list bool) (o : zout) (b : list bool) : zstep :=
  match fuel with
  | [] => Stopped ZBufError o
  | _ :: fuel' =>
      stop (take_bits 1 b) o (fun final b =>
      stop (take_bits 2 b) o (fun kind b =>
      let r :=
        if kind =? 0 then stored_block o b
        else if kind =? 1 then symbols b fixed_lit fixed_dist o b
        else if kind =? 2 then
          stop (dynamic_tables b) o (fun '(lit, dist) b => symbols b lit dist o b)
        else Stopped ZError o in
      match r with
      | Stopped s o => Stopped s o
      | Going o b => if final =? 1 then Going o b else blocks fuel' o b
      end))
  end.

(** ** The zlib wrapper (RFC 1950) *)
Definition adler32 (l : bytes) : Z :=
  let '(a, s) := fold_left (fun '(a, s) x =>
    let a := (a + x) mod 65521 in (a, (s + a) mod 65521)) l (1, 0) in
  s * 65536 + a.

(** A big endian number on 4 bytes, at a byte boundary. *)
Definition take_checksum (b : list bool) : got Z :=
  match take_bits 32 (skipn (length b mod 8) b) with
  | Got v r => Got (v mod 256 * 16777216 + v / 256 mod 256 * 65536 +
                    v / 65536 mod 256 * 256 + v / 16777216) r
  | Short => Short
  | Bad => Bad
  end.

Definition finish (r : zstep) : zstatus * bytes :=
  match r with
  | Stopped s o => (s, rev_append (z_out o) [])
  | Going o b =>
      let written := rev_append (z_out o) [] in
      match take_checksum b with
      | Got v _ => (if v =? adler32 written then ZStreamEnd else ZError, written)
      | Short => (ZBufError, written)
      | Bad => (ZError, written)
      end
  end.

Definition inflate_zlib : inflater := fun data room =>
  match data with
  | cmf :: flg :: body =>
      if negb (cmf mod 16 =? 8) || (7 <? cmf / 16) || negb ((cmf * 256 + flg) mod 31 =? 0) ||
         Z.odd (flg / 32)
      then (ZError, [])
      else let b := bits_of body in
           finish (blocks b {| z_out := []; z_room := room |} b)
  | _ => (ZBufError, [])
  end.
