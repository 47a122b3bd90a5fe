(** Model of the derived [Debug] of the errors of src/loader/mod.rs. *)
From Coq Require Import String.
From Verif.Model Require Import Base Nom Loader Messages.
Local Open Scope string_scope.
Local Open Scope Z_scope.

(** [Debug] of [str], for ASCII text: quotes, backslashes and control characters
    are escaped (core::char::escape_debug). *)
Definition hex_digit (d : Z) : Z := if d <? 10 then 48 + d else 87 + d.
Definition char_debug (x : Z) : bytes :=
  if x =? 0 then text "\0" else if x =? 9 then text "\t" else if x =? 10 then text "\n" else if x =? 13 then text "\r"
  else if x =? 34 then [92; 34] else if x =? 92 then [92; 92]
  else if (x <? 32) || (x =? 127)
       then (text "\u{" ++ (if x <? 16 then [] else [hex_digit (x / 16)]) ++ [hex_digit (x mod 16)] ++ text "}")%list
  else [x].
Definition str_debug (l : bytes) : bytes := ([34] ++ flat_map char_debug l ++ [34])%list.

(** mod.rs:407-414; the other variants are never made. *)
Definition load_sprite_error_debug (e : load_sprite_error) : bytes :=
  (text "Parse { message: " ++ str_debug (message e) ++ text " }")%list.
(** mod.rs:428-445 *)
Definition load_image_error_debug (e : load_image_error) : bytes :=
  text match e with
       | TargetBufferTooSmall => "TargetBufferTooSmall" | MissingPalette => "MissingPalette"
       | UnsupportedColorDepth => "UnsupportedColorDepth" | DecompressError => "DecompressError"
       | InvalidImageData => "InvalidImageData"
       end.
