(** The position in UTF-8 errors and the texts of errors (C89-C91, C95). *)
From Coq Require Import String.
From Verif.Model Require Import Loader Messages.
From Verif.Spec Require Import Bytes Utf8Spec Format Errors Messages.
From Verif.Proofs Require Import Utf8Facts MessageProps DisplayProps.
From Verif.Tests Require Import Configs Build.
Local Open Scope Z_scope.
Local Open Scope list_scope.

(** ** C89 *)
Theorem C89_position : forall s p len, from_utf8 s = Some (p, len) <-> utf8_fault s p len.
Proof. exact from_utf8_fault. Qed.
Print Assumptions C89_position.
Theorem C89_string : forall s r p len, u16 (zlen s) ->
  parse_string (le 2 (zlen s) ++ s ++ r) = Err (NError (EUtf8 p len)) <-> utf8_fault s p len.
Proof. exact string_fault. Qed.
Print Assumptions C89_string.
Theorem C89_unique : forall s p len p' len', utf8_fault s p len -> utf8_fault s p' len' -> p = p' /\ len = len'.
Proof. exact fault_unique. Qed.
Print Assumptions C89_unique.

Example C89_example :
  map (fun l => parse_string (le 2 (zlen l) ++ l))
    [[97; 0xC3; 0xA4; 0xFF; 97]; [97; 0xE2; 0x82]; [0xE2; 0x82; 97]; [0xF0; 0x9F; 0x98; 97]; [0xE0; 0x80; 0x80]; [97; 0xC3]] =
  map (fun '(p, len) => Err (NError (EUtf8 p len))) [(3, Some 1); (1, None); (0, Some 2); (0, Some 3); (0, Some 1); (1, None)].
Proof. reflexivity. Qed.

(** ** C90 *)
Theorem C90_message : forall e e', message e = message e' -> e = e'.
Proof. exact message_inj. Qed.
Print Assumptions C90_message.

Example C90_example :
  message (LParse (NFailure (EInvalidFrameRange 5 4))) = text "Parsing Failure: InvalidFrameRange(5, 4)" /\
  message (LParse (NError (ENom [0; 17; 255] KTag))) = text "Parsing Error: Nom(Error { input: [0, 17, 255], code: Tag })" /\
  message (LParse (NError (ENom [] KEof))) = text "Parsing Error: Nom(Error { input: [], code: Eof })" /\
  message (LParse (NError (EUtf8 3 (Some 1)))) = text "Parsing Error: Utf8Error(Utf8Error { valid_up_to: 3, error_len: Some(1) })" /\
  message (LInvalidLinkedCel 12 3) = text "invalid linked cel at frame 12 layer 3" /\
  load_sprite_error_display LInvalidCel = text "parsing failed invalid cel".
Proof. repeat split. Qed.

(** ** C91 *)
Theorem C91_printable_partial : forall e, printable (load_sprite_error_display e).
Proof. exact message_printable. Qed.
Print Assumptions C91_printable_partial.

(** Wanted: a text of bounded length.  Refuted: an error after the first frame
    lists everything from the unreadable frame to the end of the file, in decimal. *)
Theorem C91_length_refuted : forall c i f fs r x, cfg_ok c -> is_bytes i -> addressable c i ->
  at_frame c i (f :: fs) r -> parse_raw_file c i = Err (NError x) ->
  exists fs' r' e, at_frame c i fs' r' /\ fs' <> [] /\ ~ starts_frame c r' /\ load c i = Err e /\ 3 * zlen r' <= zlen (message e).
Proof. exact message_long. Qed.
Print Assumptions C91_length_refuted.
(** No text is longer than this. *)
Theorem C91_length_partial : forall c i e, cfg_ok c -> is_bytes i -> addressable c i ->
  parse_file c i = Err e -> zlen (nom_err_display e) <= 5 * zlen i + 100.
Proof. exact message_length. Qed.
Print Assumptions C91_length_partial.
Theorem C91_load_length_partial : forall c i e, cfg_ok c -> is_bytes i -> addressable c i ->
  load c i = Err e -> zlen (message e) <= 5 * zlen i + 100.
Proof. exact load_message_length. Qed.
Print Assumptions C91_load_length_partial.

Example C91_example : exists e, load dbg64 (hdr 2 32 1 1 ++ frm [layer_ch 1 0 0 255 [97]] ++ repeat 255 1000) = Err e /\
  zlen (message e) = 5048.
Proof. eexists. split; [vm_compute; reflexivity|vm_compute; reflexivity]. Qed.

(** ** C95 *)
(** Wanted: errors that differ are displayed differently.  Refuted for the errors
    of the parser: only the kind is written, without the numbers. *)
Theorem C95_details_refuted : forall c, cfg_ok c -> exists i i' e e',
  is_bytes i /\ is_bytes i' /\ addressable c i /\ addressable c i' /\
  parse_file c i = Err (NFailure e) /\ parse_file c i' = Err (NFailure e') /\
  e <> e' /\ parse_error_display e = parse_error_display e'.
Proof. exact parse_display_lost. Qed.
Print Assumptions C95_details_refuted.
Theorem C95_kind_partial : forall e e', parse_error_display e = parse_error_display e' <-> same_kind e e'.
Proof. exact parse_display_kind. Qed.
Print Assumptions C95_kind_partial.
Theorem C95_palette_partial : forall e e', palette_error_display e = palette_error_display e' -> e = e'.
Proof. exact palette_display_inj. Qed.
Print Assumptions C95_palette_partial.
Theorem C95_image_partial : forall e e', load_image_error_display e = load_image_error_display e' -> e = e'.
Proof. exact image_display_inj. Qed.
Print Assumptions C95_image_partial.

Example C95_example :
  parse_error_display (EInvalidFrameRange 5 4) = text "InvalidFrameRange" /\
  parse_error_debug (EInvalidFrameRange 5 4) = text "InvalidFrameRange(5, 4)" /\
  parse_error_display (EPalette PFirstGtLast) = text "PaletteError" /\
  palette_error_display PFirstGtLast = text "First color index > last color index" /\
  load_image_error_display TargetBufferTooSmall = text "target buffer too small".
Proof. repeat split. Qed.
