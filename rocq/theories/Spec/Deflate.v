(** Which bytes a compressed stream stands for: RFC 1951 ("deflate") and
    RFC 1950 ("zlib") as relations between bits and bytes, independent of the
    decompressor in Model/Inflate.v. *)
From Verif.Model Require Import Loader.
From Verif.Spec Require Import Bytes Zlib.

(** ** Bits (RFC 1951, 3.1.1) *)
(** The value of bits, least or most significant bit first *)
Fixpoint lsb (b : list bool) : Z :=
  match b with
  | [] => 0
  | x :: b' => Z.b2z x + 2 * lsb b'
  end.
Definition msb (b : list bool) : Z := lsb (rev b).

(** Eight bits to a byte *)
Inductive packed : bytes -> list bool -> Prop :=
| packed_nil : packed [] []
| packed_byte v l b : length v = 8%nat -> packed l b -> packed (lsb v :: l) (v ++ b).

(** ** Codes given by the lengths of their words (3.2.2)

    Symbol [s] has a word of [ls[s]] bits, or none if that is 0.  Shorter words
    come first in the order of bit strings, words of the same length in the
    order of their symbols: before the first word of [n] bits there are as many
    strings of [n] bits as begin with a shorter word. *)
Definition total (l : list Z) : Z := fold_right Z.add 0 l.
Definition first_word (ls : list Z) (n : Z) : Z :=
  total (map (fun k => if (0 <? k) && (k <? n) then 2 ^ (n - k) else 0) ls).
Definition word_value (ls : list Z) (s : nat) (n : Z) : Z :=
  first_word ls n + Z.of_nat (count_occ Z.eq_dec (firstn s ls) n).
Definition codeword (ls : list Z) (s : nat) (b : list bool) : Prop :=
  exists n, nth_error ls s = Some n /\ 1 <= n <= 15 /\ zlen b = n /\ msb b = word_value ls s n.

(** The words use up all strings of 15 bits, or there is at most one word. *)
Definition usable (ls : list Z) : Prop :=
  total (map (fun k => if 0 <? k then 2 ^ (15 - k) else 0) ls) = 2 ^ 15 \/
  zlen (filter (fun k => 0 <? k) ls) <= 1.

(** ** Elements of a compressed block (3.2.5)

    Symbols 257 to 285 stand for lengths, 0 to 29 of the other code for
    distances: number of extra bits, and the value if these are 0. *)
Definition length_extra (k : Z) : Z := if (k <? 8) || (k =? 28) then 0 else k / 4 - 1.
Definition length_base (k : Z) : Z :=
  if k =? 28 then 258 else if k <? 8 then 3 + k else 3 + (4 + k mod 4) * 2 ^ length_extra k.
Definition distance_extra (k : Z) : Z := if k <? 4 then 0 else k / 2 - 1.
Definition distance_base (k : Z) : Z :=
  if k <? 4 then 1 + k else 1 + (2 + k mod 2) * 2 ^ distance_extra k.

(** [l] repeats what was written [distance] bytes before, itself included. *)
Definition repeats (out : bytes) (distance : Z) (l : bytes) : Prop :=
  1 <= distance <= zlen out /\
  forall k, (k < length l)%nat ->
    nth_error (out ++ l) (length out + k) = nth_error (out ++ l) (length out + k - Z.to_nat distance).

(** [elements ll dl out b out']: after [out] was written, the bits [b] up to
    the end of the block complete it to [out']. *)
Inductive elements (ll dl : list Z) : bytes -> list bool -> bytes -> Prop :=
| element_end out b : codeword ll 256 b -> elements ll dl out b out
| element_literal out v b rest out' :
    (v < 256)%nat -> codeword ll v b -> elements ll dl (out ++ [Z.of_nat v]) rest out' ->
    elements ll dl out (b ++ rest) out'
| element_repeat out k d b x b' x' l rest out' :
    (k <= 28)%nat -> codeword ll (257 + k) b -> zlen x = length_extra (Z.of_nat k) ->
    (d <= 29)%nat -> codeword dl d b' -> zlen x' = distance_extra (Z.of_nat d) ->
    zlen l = length_base (Z.of_nat k) + lsb x ->
    repeats out (distance_base (Z.of_nat d) + lsb x') l ->
    elements ll dl (out ++ l) rest out' ->
    elements ll dl out (b ++ x ++ b' ++ x' ++ rest) out'.

(** 3.2.6 *)
Definition fixed_lengths : list Z := repeat 8 144 ++ repeat 9 112 ++ repeat 7 24 ++ repeat 8 8.
Definition fixed_distances : list Z := repeat 5 30.

(** 3.2.7: a list of code lengths, run length encoded.  [runs cl l b l']: after
    [l], the bits [b] complete it to [l']. *)
Inductive runs (cl : list Z) : list Z -> list bool -> list Z -> Prop :=
| runs_end l : runs cl l [] l
| runs_length l v b rest l' :
    (v < 16)%nat -> codeword cl v b -> runs cl (l ++ [Z.of_nat v]) rest l' -> runs cl l (b ++ rest) l'
| runs_previous l v b x rest l' :
    codeword cl 16 b -> zlen x = 2 -> runs cl (l ++ [v] ++ repeat v (Z.to_nat (3 + lsb x))) rest l' ->
    runs cl (l ++ [v]) (b ++ x ++ rest) l'
| runs_zeros l b x rest l' :
    codeword cl 17 b -> zlen x = 3 -> runs cl (l ++ repeat 0 (Z.to_nat (3 + lsb x))) rest l' ->
    runs cl l (b ++ x ++ rest) l'
| runs_many_zeros l b x rest l' :
    codeword cl 18 b -> zlen x = 7 -> runs cl (l ++ repeat 0 (Z.to_nat (11 + lsb x))) rest l' ->
    runs cl l (b ++ x ++ rest) l'.

(** The code of the code lengths is given by three bits for each symbol, in
    this order; the rest have no word. *)
Definition symbol_order : list nat :=
  [16; 17; 18; 0; 8; 7; 9; 6; 10; 5; 11; 4; 12; 3; 13; 2; 14; 1; 15]%nat.
Definition ordered (vs : list (list bool)) (cl : list Z) : Prop :=
  length cl = 19%nat /\ Forall (fun v => zlen v = 3) vs /\
  forall k s, nth_error symbol_order k = Some s -> nth_error cl s = Some (lsb (nth k vs [])).

Definition code_header (b : list bool) (ll dl : list Z) : Prop :=
  exists b1 b2 b3 vs cl rest,
    b = b1 ++ b2 ++ b3 ++ concat vs ++ rest /\ zlen b1 = 5 /\ zlen b2 = 5 /\ zlen b3 = 4 /\
    zlen ll = 257 + lsb b1 /\ zlen ll <= 286 /\ zlen dl = 1 + lsb b2 /\ zlen dl <= 30 /\
    zlen vs = 4 + lsb b3 /\ ordered vs cl /\ usable cl /\ runs cl [] rest (ll ++ dl) /\
    usable ll /\ usable dl /\ nth 256 ll 0 <> 0.

(** ** Blocks (3.2.3)

    [pos]: number of bits before *)
Definition aligned (pos : Z) (pad : list bool) : Prop := zlen pad < 8 /\ (pos + zlen pad) mod 8 = 0.

Inductive block (pos : Z) (out : bytes) : list bool -> bytes -> Prop :=
| block_stored pad b1 b2 data b : aligned (pos + 2) pad -> zlen b1 = 16 -> zlen b2 = 16 ->
    lsb b1 = zlen data -> lsb b2 = 65535 - zlen data -> packed data b ->
    block pos out ([false; false] ++ pad ++ b1 ++ b2 ++ b) (out ++ data)
| block_fixed b out' : elements fixed_lengths fixed_distances out b out' ->
    block pos out ([true; false] ++ b) out'
| block_dynamic ll dl h b out' : code_header h ll dl -> elements ll dl out b out' ->
    block pos out ([false; true] ++ h ++ b) out'.

Inductive deflated : Z -> bytes -> list bool -> bytes -> Prop :=
| deflated_last pos out b out' : block (pos + 1) out b out' -> deflated pos out ([true] ++ b) out'
| deflated_more pos out b mid rest out' :
    block (pos + 1) out b mid -> deflated (pos + 1 + zlen b) mid rest out' ->
    deflated pos out ([false] ++ b ++ rest) out'.

(** ** Streams (RFC 1950), without a preset dictionary *)
Definition zlib_stream (data w : bytes) : Prop :=
  exists cmf flg body b pad,
    data = [cmf; flg] ++ body ++ be32 (adler w) /\
    is_byte cmf /\ is_byte flg /\
    cmf mod 16 = 8 /\ cmf / 16 <= 7 /\ (cmf * 256 + flg) mod 31 = 0 /\ flg / 32 mod 2 = 0 /\
    deflated 0 [] b w /\ zlen pad < 8 /\ packed body (b ++ pad).

(** A decompressor that reads these streams, whatever follows them, if the output
    has room ... *)
Definition reads_streams (inflate : inflater) : Prop :=
  forall stream rest n w, is_bytes (stream ++ rest) -> zlib_stream stream w -> zlen w <= n ->
    inflate (stream ++ rest) n = (ZStreamEnd, w).
(** ... and one that reads nothing else. *)
Definition reads_zlib (inflate : inflater) : Prop :=
  forall data n w, is_bytes data -> 0 <= n ->
    (inflate data n = (ZStreamEnd, w) <->
     zlen w <= n /\ exists stream rest, data = stream ++ rest /\ zlib_stream stream w).

(** ** Pictures *)
(** A plain image with the pixels that the data of a compressed one holds *)
Inductive unpacks (d : color_depth) : image -> image -> Prop :=
| unpacks_plain im : im_compressed im = false -> unpacks d im im
| unpacks_stream im stream rest px :
    im_compressed im = true -> im_data im = stream ++ rest -> zlib_stream stream px ->
    zlen px = pixel_bytes d im ->
    unpacks d im {| im_width := im_width im; im_height := im_height im; im_data := px; im_compressed := false |}.

(** [s'] is the sprite [s] with plain images. *)
Definition unpacked (s s' : ase_file) : Prop :=
  af_file s' = af_file s /\ af_layers s' = af_layers s /\ af_frames s' = af_frames s /\ af_tags s' = af_tags s /\
  Forall2 (unpacks (h_color_depth (f_header (af_file s)))) (af_images s) (af_images s').
