(** The error for a file is that of its first mistake (C112). *)
From Verif.Model Require Import Loader.
From Verif.Spec Require Import Bytes Format FileSpec LoaderSpec Mistakes Loads FirstMistake.
From Verif.Proofs Require Import FirstMistakeProps.
From Verif.Tests Require Import Configs Build.

(** ** C112 *)
(** [file_bad], [first_mistake] and the layout mention no function of the reader. *)
Theorem C112_raw : forall c i err, cfg_ok c -> is_bytes i -> addressable c i ->
  (parse_raw_file c i = Err err <-> file_bad c i err).
Proof. exact raw_first_mistake. Qed.
Print Assumptions C112_raw.

Theorem C112_file : forall c i err, cfg_ok c -> is_bytes i -> addressable c i ->
  (parse_file c i = Err err <-> first_mistake c i err).
Proof. exact file_first_mistake. Qed.
Print Assumptions C112_file.

Theorem C112_load : forall c i e, cfg_ok c -> is_bytes i -> addressable c i ->
  (load c i = Err e <->
   (exists x, e = LParse x /\ first_mistake c i x) \/
   exists raw f before k x after, raw_file_l area_bad raw i /\ complete_file raw f /\
     file_cels (f_frames f) = before ++ (k, x) :: after /\ cel_wrong (f_frames f) k x e /\
     Forall (fun '(k, x) => forall e, ~ cel_wrong (f_frames f) k x e) before).
Proof. exact load_first_mistake. Qed.
Print Assumptions C112_load.

Theorem C112_unique : forall c i err err', cfg_ok c -> is_bytes i -> addressable c i ->
  first_mistake c i err -> first_mistake c i err' -> err = err'.
Proof. exact first_unique. Qed.
Print Assumptions C112_unique.

(** A slice whose second key has no height; the same in a frame of its own, after
    another; an area that is cut off, and one whose size is too small. *)
Example C112_example :
  let good := frm [layer_ch 1 0 0 255 [97]] in
  let slice := encode_chunk 0x2022 (le 4 2 ++ le 4 0 ++ le 4 0 ++ [1; 0; 120] ++ repeat 1 20 ++ repeat 2 18) in
  let area n := encode_chunk 0x2020 (le 4 4 ++ le 4 n ++ le 4 0 ++ [5; 6]) in
  parse_file dbg64 (hdr 1 32 1 1 ++ frm [layer_ch 1 0 0 255 [97]; slice]) = Err (NError (ENom [2; 2] KEof)) /\
  parse_file dbg64 (hdr 2 32 1 1 ++ good ++ frm [slice]) = Err (NError (ENom (frm [slice]) KEof)) /\
  parse_file dbg64 (hdr 1 32 1 1 ++ frm [area 11]) = Err (NError (ENom [5; 6] KEof)) /\
  parse_file rel64 (hdr 1 32 1 1 ++ frm [area 7]) = Err (NError (ENom [5; 6] KEof)).
Proof. vm_compute. auto 10. Qed.
