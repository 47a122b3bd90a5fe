(** The error kept for a properties area (C111). *)
From Verif.Model Require Import Chunks RawFile.
From Verif.Spec Require Import Bytes Format Mistakes.
From Verif.Proofs Require Import MistakeProps.
From Verif.Tests Require Import Configs Build.

(** ** C111 *)
(** Files are read exactly as their layout says, including the error kept for
    each properties area; no function of the crate is mentioned in the layout,
    and it does not depend on the platform. *)
Theorem C111_file : forall c i f, cfg_ok c -> is_bytes i -> addressable c i ->
  (parse_raw_file c i = Ok f <-> raw_file_l area_bad f i).
Proof. exact raw_file_exactly. Qed.
Print Assumptions C111_file.

Theorem C111_user_data : forall c i r u, cfg_ok c -> is_bytes i -> addressable c i ->
  (parse_user_data_chunk c i = Ok (r, u) <-> exists e, i = e ++ r /\ user_data_l area_bad u e).
Proof. exact user_data_exactly. Qed.
Print Assumptions C111_user_data.

(** Every area that does not start with its maps has a first mistake, and only one. *)
Theorem C111_mistake : forall area n, is_bytes area -> 0 <= n ->
  ((exists err, area_bad area n err) <->
   ~ exists e rest ms, area = e ++ rest /\ zlen ms = n /\ maps_l ms e).
Proof. exact mistake_iff. Qed.
Print Assumptions C111_mistake.

Theorem C111_unique : forall area n err err', is_bytes area ->
  area_bad area n err -> area_bad area n err' -> err = err'.
Proof. exact mistake_unique. Qed.
Print Assumptions C111_unique.

(** An unknown type code in the second property; a text that is not UTF-8; a
    point of which the second half is missing. *)
Example C111_example :
  let kept area := parse_user_data_chunk dbg64 ([4; 0; 0; 0] ++ le 4 (zlen area + 8) ++ [1; 0; 0; 0] ++ area) in
  let keeps e := Ok ([], {| ud_text := None; ud_color := None; ud_properties_maps := Some (inr e) |}) in
  kept [7; 0; 0; 0; 2; 0; 0; 0; 1; 0; 97; 1; 0; 1; 1; 0; 98; 0x20; 0; 5] = keeps (NFailure (EInvalidPropertyType 0x20)) /\
  kept [7; 0; 0; 0; 1; 0; 0; 0; 1; 0; 97; 0x0D; 0; 2; 0; 97; 0xFF] = keeps (NError (EUtf8 1 (Some 1))) /\
  kept [7; 0; 0; 0; 1; 0; 0; 0; 1; 0; 97; 0x0E; 0; 1; 2; 3; 4; 5; 6] = keeps (NError (ENom [5; 6] KEof)).
Proof. repeat split. Qed.
