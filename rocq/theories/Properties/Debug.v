(** The [Debug] texts of the loader's errors (C106). *)
From Coq Require Import String.
From Verif.Model Require Import Loader Messages DebugTexts.
From Verif.Spec Require Import Bytes Messages.
From Verif.Proofs Require Import DebugProps.
Local Open Scope Z_scope.
Local Open Scope list_scope.

(** ** C106 *)
(** Nothing in a message has to be escaped. *)
Theorem C106_text : forall e,
  load_sprite_error_debug e = text "Parse { message: " ++ [34] ++ message e ++ [34] ++ text " }" /\
  printable (load_sprite_error_debug e).
Proof. exact sprite_debug. Qed.
Print Assumptions C106_text.

Theorem C106_load : forall e e', load_sprite_error_debug e = load_sprite_error_debug e' -> e = e'.
Proof. exact sprite_debug_inj. Qed.
Print Assumptions C106_load.

Theorem C106_image : forall e e', load_image_error_debug e = load_image_error_debug e' -> e = e'.
Proof. exact image_debug_inj. Qed.
Print Assumptions C106_image.

(** Any ASCII text would be printable, and could be read off. *)
Theorem C106_escapes : forall l, Forall (fun x => 0 <= x < 128) l -> printable (str_debug l).
Proof. exact escaped_printable. Qed.
Print Assumptions C106_escapes.
Theorem C106_strings : forall l l', Forall (fun x => 0 <= x < 128) l -> Forall (fun x => 0 <= x < 128) l' -> str_debug l = str_debug l' -> l = l'.
Proof. exact escaped_inj. Qed.
Print Assumptions C106_strings.

Example C106_example :
  load_sprite_error_debug (LInvalidLinkedCel 12 3) =
    text "Parse { message: " ++ [34] ++ text "invalid linked cel at frame 12 layer 3" ++ [34] ++ text " }" /\
  str_debug [97; 34; 92; 10; 27] = [34; 97; 92; 34; 92; 92] ++ text "\n\u{1b}" ++ [34] /\
  str_debug [0; 7; 9; 13; 31; 127] = [34] ++ text "\0\u{7}\t\r\u{1f}\u{7f}" ++ [34] /\
  load_image_error_debug DecompressError = text "DecompressError".
Proof. repeat split. Qed.
