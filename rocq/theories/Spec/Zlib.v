(** zlib streams of stored blocks (RFC 1950, RFC 1951 3.2.4), written
    independently of the decompressor in Model/Inflate.v. *)
From Verif.Model Require Import Loader.
From Verif.Spec Require Import Bytes.

(** Adler-32: [1] plus the sum of the bytes, and the sum of these sums over all
    non-empty prefixes, in which each byte counts as often as there are bytes
    from it on. *)
Fixpoint sum (l : bytes) : Z :=
  match l with
  | [] => 0
  | x :: l' => x + sum l'
  end.
Fixpoint weighted_sum (l : bytes) : Z :=
  match l with
  | [] => 0
  | x :: l' => zlen l * x + weighted_sum l'
  end.
Definition adler (l : bytes) : Z :=
  (zlen l + weighted_sum l) mod 65521 * 65536 + (1 + sum l) mod 65521.

(** Big endian *)
Definition be32 (v : Z) : bytes := rev (le 4 v).

(** The last block is marked. *)
Fixpoint stored_blocks (blocks : list bytes) : bytes :=
  match blocks with
  | [] => []
  | x :: rest =>
      (match rest with [] => 1 | _ => 0 end) :: le 2 (zlen x) ++ le 2 (65535 - zlen x) ++ x ++
      stored_blocks rest
  end.

(** A zlib stream that holds the given blocks without compressing them. *)
Definition zlib_stored (blocks : list bytes) : bytes :=
  [0x78; 0x01] ++ stored_blocks blocks ++ be32 (adler (concat blocks)).

(** There is a block and each fits its length field. *)
Definition storable (blocks : list bytes) : Prop :=
  blocks <> [] /\ Forall (fun x => zlen x <= 65535 /\ is_bytes x) blocks.

(** [inflate] reads such streams when the output is just large enough. *)
Definition reads_stored (inflate : inflater) : Prop :=
  forall blocks, storable blocks ->
    inflate (zlib_stored blocks) (zlen (concat blocks)) = (ZStreamEnd, concat blocks).

(** Such a stream with any checksum and more data behind it. *)
Definition stored_stream (blocks : list bytes) (checksum : Z) (rest : bytes) : bytes :=
  [0x78; 0x01] ++ stored_blocks blocks ++ be32 checksum ++ rest.

(** Number of bytes the stored pixels of an image take. *)
Definition pixel_bytes (d : color_depth) (im : image) : Z :=
  im_width im * im_height im *
  match d with Rgba => 4 | Grayscale => 2 | Indexed => 1 | DUnknown _ => 0 end.
