(** Model of the texts of errors.  [format!] writes integers in decimal; the
    derived [Debug] writes names and fields, slices in brackets. *)
From Coq Require Import String Ascii.
From Verif.Model Require Import Base Nom Loader.
Local Open Scope string_scope.
Local Open Scope Z_scope.

(** The bytes of a literal *)
Definition text (s : string) : bytes := map (fun a => Z.of_N (N_of_ascii a)) (list_ascii_of_string s).

(** [Display] and [Debug] of integers *)
Fixpoint digits (fuel : nat) (z : Z) : bytes :=
  match fuel with
  | O => [48 + z]
  | S fuel' => if z <? 10 then [48 + z] else (digits fuel' (z / 10) ++ [48 + z mod 10])%list
  end.
Definition decimal (z : Z) : bytes :=
  if z <? 0 then 45 :: digits (S (Z.to_nat (Z.log2 (- z)))) (- z) else digits (S (Z.to_nat (Z.log2 z))) z.

(** [Debug] of [&[u8]] *)
Fixpoint separated (l : bytes) : bytes :=
  match l with
  | [] => []
  | [x] => decimal x
  | x :: l' => (decimal x ++ text ", " ++ separated l')%list
  end.
Definition slice_debug (l : bytes) : bytes := (text "[" ++ separated l ++ text "]")%list.

(** [Debug] of src/binary/palette.rs:133-147 *)
Definition palette_error_debug (e : palette_error) : bytes :=
  text match e with
       | PMissing => "Missing" | PEmpty => "Empty"
       | PFirstOOB => "FirstColorIndexOutOfBounds" | PLastOOB => "LastColorIndexOutOfBounds"
       | PFirstGtLast => "FirstColorIndexGreaterThanLastColorIndex" | PIndexOOB => "IndexOutOfBounds"
       end.
(** [Debug] of nom::error::ErrorKind *)
Definition kind_debug (k : error_kind) : bytes :=
  text match k with KEof => "Eof" | KTag => "Tag" | KMany1 => "Many1" end.
Definition option_debug (o : option Z) : bytes :=
  match o with None => text "None" | Some z => (text "Some(" ++ decimal z ++ text ")")%list end.

(** [Debug] of src/binary/errors.rs:10-37 *)
Definition parse_error_debug (e : parse_error) : bytes :=
  match e with
  | EDwordToUsize d => text "DwordToUsize(" ++ decimal d ++ text ")"
  | EInvalidFrameSize d => text "InvalidFrameSize(" ++ decimal d ++ text ")"
  | EInvalidChunkSize d => text "InvalidChunkSize(" ++ decimal d ++ text ")"
  | EUtf8 p l => text "Utf8Error(Utf8Error { valid_up_to: " ++ decimal p ++ text ", error_len: " ++ option_debug l ++ text " })"
  | EPalette e => text "PaletteError(" ++ palette_error_debug e ++ text ")"
  | EInvalidFrameRange a b => text "InvalidFrameRange(" ++ decimal a ++ text ", " ++ decimal b ++ text ")"
  | ELayerIndexOutOfBounds => text "LayerIndexOutOfBounds"
  | EInvalidPropertyType w => text "InvalidPropertyType(" ++ decimal w ++ text ")"
  | ENom i k => text "Nom(Error { input: " ++ slice_debug i ++ text ", code: " ++ kind_debug k ++ text " })"
  end%list.

(** [Display] of nom::Err *)
Definition nom_err_display (e : nom_err) : bytes :=
  match e with
  | NError e => text "Parsing Error: " ++ parse_error_debug e
  | NFailure e => text "Parsing Failure: " ++ parse_error_debug e
  end%list.

(** The field [message] of [LoadSpriteError::Parse], mod.rs:131-133, 188-198 *)
Definition message (e : load_sprite_error) : bytes :=
  match e with
  | LParse e => nom_err_display e
  | LInvalidLinkedCel frame layer => text "invalid linked cel at frame " ++ decimal frame ++ text " layer " ++ decimal layer
  | LInvalidCel => text "invalid cel"
  end%list.
(** [Display] of [LoadSpriteError], mod.rs:408-415 *)
Definition load_sprite_error_display (e : load_sprite_error) : bytes := (text "parsing failed " ++ message e)%list.

(** [Display] of src/binary/errors.rs:10-37: strum writes the name of the variant. *)
Definition parse_error_display (e : parse_error) : bytes :=
  text match e with
       | EDwordToUsize _ => "DwordToUsize" | EInvalidFrameSize _ => "InvalidFrameSize"
       | EInvalidChunkSize _ => "InvalidChunkSize" | EUtf8 _ _ => "Utf8Error" | EPalette _ => "PaletteError"
       | EInvalidFrameRange _ _ => "InvalidFrameRange" | ELayerIndexOutOfBounds => "LayerIndexOutOfBounds"
       | EInvalidPropertyType _ => "InvalidPropertyType" | ENom _ _ => "Nom"
       end.
(** [Display] of src/binary/palette.rs:133-147 *)
Definition palette_error_display (e : palette_error) : bytes :=
  text match e with
       | PMissing => "Palette is missing" | PEmpty => "Palette is empty"
       | PFirstOOB => "First color index not in range 0..255" | PLastOOB => "Last color index not in range 0..255"
       | PFirstGtLast => "First color index > last color index" | PIndexOOB => "Palette index out of bounds"
       end.
(** [Display] of [LoadImageError], mod.rs:427-445 *)
Definition load_image_error_display (e : load_image_error) : bytes :=
  text match e with
       | TargetBufferTooSmall => "target buffer too small" | MissingPalette => "missing palette"
       | UnsupportedColorDepth => "unsupported color depth" | DecompressError => "decompression failed"
       | InvalidImageData => "invalid image data"
       end.
