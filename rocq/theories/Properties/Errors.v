(** Which errors are reported, and where (C85, C86). *)
From Verif.Model Require Import Loader.
From Verif.Spec Require Import Bytes Format FileSpec Errors.
From Verif.Proofs Require Import ErrorProps.
From Verif.Tests Require Import Configs Build.

(** ** C85 *)
(** A chunk size below 4 is reported as a wrong frame size ... *)
Theorem C85_chunk_size_refuted : forall c i fs cs n r, cfg_ok c -> is_bytes i -> addressable c i ->
  at_chunk c i fs cs (le 4 n ++ r) -> 0 <= n < 4 -> load c i = Err (LParse (NFailure (EInvalidFrameSize n))).
Proof. exact chunk_size_load. Qed.
Print Assumptions C85_chunk_size_refuted.

(** ... and [InvalidChunkSize], with two more, is never reported. *)
Theorem C85_unused_refuted : forall c i e, cfg_ok c -> is_bytes i -> addressable c i -> parse_file c i = Err e ->
  match e with NError x => ~ unused x | NFailure x => ~ unused x end.
Proof. exact file_unused. Qed.
Print Assumptions C85_unused_refuted.

(** What does hold: a failure is reported exactly for the mistakes listed, in
    whatever frame they are. *)
Theorem C85_failure_partial : forall c i x, cfg_ok c -> is_bytes i -> addressable c i ->
  parse_raw_file c i = Err (NFailure x) <-> mistake c i x.
Proof. exact failure_iff. Qed.
Print Assumptions C85_failure_partial.

(** For whole files two more kinds. *)
Theorem C85_file_partial : forall c i x, cfg_ok c -> is_bytes i -> addressable c i ->
  parse_file c i = Err (NFailure x) <->
  mistake c i x \/
  exists raw, raw_file_l (kept_error c) raw i /\
    ((exists e, palette_of raw = Err e /\ x = EPalette e) \/
     (exists pal before y after, palette_of raw = Ok pal /\ frame_cels raw = before ++ y :: after /\
        Forall (fun z => cc_layer_index z < layer_count raw) before /\
        layer_count raw < cc_layer_index y /\ x = ELayerIndexOutOfBounds)).
Proof. exact file_failure_iff. Qed.
Print Assumptions C85_file_partial.

Theorem C85_load_partial : forall c i x, cfg_ok c -> is_bytes i -> addressable c i ->
  mistake c i x -> load c i = Err (LParse (NFailure x)).
Proof. exact failure_load. Qed.
Print Assumptions C85_load_partial.

Example C85_example : (* a frame size, a chunk size, a tag, three palettes; the first and the last in the second frame *)
  let good := frm [layer_ch 1 0 0 255 [97]] in
  let pal a b := encode_chunk 0x2019 (le 4 1 ++ le 4 a ++ le 4 b ++ repeat 0 8) in
  load dbg64 (hdr 2 32 1 1 ++ good ++ [3; 0; 0; 0]) = Err (LParse (NFailure (EInvalidFrameSize 3))) /\
  load dbg64 (hdr 1 32 1 1 ++ frm [layer_ch 1 0 0 255 [97]; [2; 0; 0; 0]]) =
    Err (LParse (NFailure (EInvalidFrameSize 2))) /\
  load rel32 (hdr 1 32 1 1 ++ frm [tags_ch [(0, 1, [97]); (5, 4, [98])]]) =
    Err (LParse (NFailure (EInvalidFrameRange 5 4))) /\
  load rel32 (hdr 1 32 1 1 ++ frm [pal 256 3]) = Err (LParse (NFailure (EPalette PFirstOOB))) /\
  load rel64 (hdr 1 32 1 1 ++ frm [pal 255 300]) = Err (LParse (NFailure (EPalette PLastOOB))) /\
  load rel64 (hdr 2 32 1 1 ++ good ++ frm [pal 4 3]) = Err (LParse (NFailure (EPalette PFirstGtLast))).
Proof. vm_compute. auto 10. Qed.

(** ** C86 *)
(** The same frame, with a layer name that is not UTF-8: as the first frame of a
    file it is reported as such, as the second one it is an unexpected end. *)
Theorem C86_reason_refuted : forall c, cfg_ok c -> exists f,
  at_frame c bad_name_file [f] bad_name /\
  load c (hdr 1 32 1 1 ++ bad_name) = Err (LParse (NError (EUtf8 0 (Some 1)))) /\
  load c bad_name_file = Err (LParse (NError (ENom bad_name KEof))).
Proof. exact bad_name_lost. Qed.
Print Assumptions C86_reason_refuted.

(** That is what becomes of every error that is not a failure: after the first
    frame only the start of the unreadable frame is reported. *)
Theorem C86_later_partial : forall c i f fs r x, cfg_ok c -> is_bytes i -> addressable c i ->
  at_frame c i (f :: fs) r -> parse_raw_file c i = Err (NError x) ->
  exists fs' r', at_frame c i fs' r' /\ fs' <> [] /\ r' <> [] /\ ~ starts_frame c r' /\ x = ENom r' KEof.
Proof. exact later_error. Qed.
Print Assumptions C86_later_partial.

(** In general: an error is about the header, or about the first frame and
    explained by its bytes, or as before. *)
Theorem C86_cases_partial : forall c i x, cfg_ok c -> is_bytes i -> addressable c i ->
  parse_raw_file c i = Err (NError x) ->
  header_error i x \/
  (exists r, at_frame c i [] r /\ ~ starts_frame c r /\ frame_explained r x) \/
  (exists fs r, at_frame c i fs r /\ fs <> [] /\ r <> [] /\ ~ starts_frame c r /\ x = ENom r KEof).
Proof. exact error_cases. Qed.
Print Assumptions C86_cases_partial.

Theorem C86_header_partial : forall i e,
  parse_header i = Err e <-> exists x, e = NError x /\ header_error i x.
Proof. exact header_err. Qed.
Print Assumptions C86_header_partial.

Theorem C86_file_partial : forall c i x, parse_file c i = Err (NError x) ->
  cfg_ok c -> is_bytes i -> addressable c i -> parse_raw_file c i = Err (NError x).
Proof. exact file_error_iff. Qed.
Print Assumptions C86_file_partial.

Example C86_example :
  let good := frm [layer_ch 1 0 0 255 [97]] in
  load dbg64 [1; 2; 3] = Err (LParse (NError (ENom [1; 2; 3] KEof))) /\
  load dbg64 (hdr 2 32 1 1 ++ good ++ [1; 2; 3]) = Err (LParse (NError (ENom [1; 2; 3] KEof))) /\
  load dbg64 (hdr 1 32 1 1 ++ [8; 0; 0; 0; 1; 2; 3; 4; 5]) = Err (LParse (NError (ENom [1; 2; 3; 4] KTag))) /\
  load dbg64 (hdr 2 32 1 1 ++ good ++ [8; 0; 0; 0; 1; 2; 3; 4; 5]) =
    Err (LParse (NError (ENom [8; 0; 0; 0; 1; 2; 3; 4; 5] KEof))) /\
  parse_header (repeat 7 128) = Err (NError (ENom (repeat 7 124) KTag)).
Proof. vm_compute. auto 10. Qed.
