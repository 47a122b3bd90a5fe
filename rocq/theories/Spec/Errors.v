(** What an error says about the input.

    Positions in a file are given by the layouts of Spec/Format.v: everything
    before them is well formed. *)
From Verif.Model Require Import RawFile.
From Verif.Spec Require Import Bytes Utf8Spec Format.

(** The file starts with a header and the frames [fs]; then comes [r]. *)
Definition at_frame (c : cfg) (i : bytes) (fs : list raw_frame) (r : bytes) : Prop :=
  exists h e1 e2, header_l h e1 /\ seq_l (frame_l (kept_error c)) fs e2 /\ i = e1 ++ e2 ++ r.

(** Then comes a frame, all of it there, that starts with the chunks [cs] and
    has announced more; [r] is the rest of this frame. *)
Definition at_chunk (c : cfg) (i : bytes) (fs : list raw_frame) (cs : list chunk) (r : bytes) : Prop :=
  exists size old duration ignored new e after,
    at_frame c i fs (le 4 size ++ le 2 0xF1FA ++ le 2 old ++ le 2 duration ++ ignored ++ le 4 new ++
                     e ++ r ++ after) /\
    u32 size /\ u16 old /\ u16 duration /\ zlen ignored = 2 /\ u32 new /\
    size = zlen e + zlen r + 16 /\
    seq_l (chunk_l (kept_error c)) cs e /\ zlen cs < (if new =? 0 then old else new).

(** Then comes a chunk, all of it there, of type [code] with data [d]. *)
Definition at_data (c : cfg) (i : bytes) (fs : list raw_frame) (cs : list chunk) (code : Z) (d : bytes) : Prop :=
  exists after, at_chunk c i fs cs (encode_chunk code d ++ after) /\ u16 code /\ u32 (zlen d + 6).

(** The mistakes that end the reading of a file at once, and what is reported. *)
Inductive mistake (c : cfg) (i : bytes) : parse_error -> Prop :=
| wrong_frame_size fs n r :
    at_frame c i fs (le 4 n ++ r) -> 0 <= n < 4 -> mistake c i (EInvalidFrameSize n)
| wrong_chunk_size fs cs n r : (* not InvalidChunkSize *)
    at_chunk c i fs cs (le 4 n ++ r) -> 0 <= n < 4 -> mistake c i (EInvalidFrameSize n)
| wrong_first fs cs size first r :
    at_data c i fs cs 0x2019 (le 4 size ++ le 4 first ++ r) -> u32 size -> u32 first ->
    256 <= first -> mistake c i (EPalette PFirstOOB)
| wrong_last fs cs size first last r :
    at_data c i fs cs 0x2019 (le 4 size ++ le 4 first ++ le 4 last ++ r) -> u32 size -> u32 last ->
    0 <= first < 256 -> 256 <= last -> mistake c i (EPalette PLastOOB)
| wrong_order fs cs size first last r :
    at_data c i fs cs 0x2019 (le 4 size ++ le 4 first ++ le 4 last ++ r) -> u32 size ->
    0 <= last < first -> first < 256 -> mistake c i (EPalette PFirstGtLast)
| wrong_range fs cs n ignored ts e from to r :
    at_data c i fs cs 0x2018 (le 2 n ++ ignored ++ e ++ le 2 from ++ le 2 to ++ r) ->
    u16 n -> zlen ignored = 8 -> seq_l tag_l ts e -> zlen ts < n ->
    u16 from -> u16 to -> to < from -> mistake c i (EInvalidFrameRange from to).

(** Other errors, found somewhere in [i]. *)
Definition explained (i : bytes) (e : parse_error) : Prop :=
  match e with
  | ENom r KEof => infix r i
  | EUtf8 p len => exists s, u16 (zlen s) /\ utf8_fault s p len /\ infix (le 2 (zlen s) ++ s) i
  | _ => False
  end.

(** The header cannot be read: it is too short, or one of its constants is not
    there; the first such is reported, with the header from there on. *)
Definition header_error (i : bytes) (e : parse_error) : Prop :=
  let zeros := [0; 0; 0; 0] in
  (zlen i < 128 /\ e = ENom i KEof) \/
  (128 <= zlen i /\ field i 4 2 <> le 2 0xA5E0 /\ e = ENom (field i 4 124) KTag) \/
  (128 <= zlen i /\ field i 4 2 = le 2 0xA5E0 /\ field i 20 4 <> zeros /\ e = ENom (field i 20 108) KTag) \/
  (128 <= zlen i /\ field i 4 2 = le 2 0xA5E0 /\ field i 20 4 = zeros /\ field i 24 4 <> zeros /\
   e = ENom (field i 24 104) KTag).

(** The first frame cannot be read: an error somewhere in it, or the magic number
    is not there.  The latter is reported with the frame from there on. *)
Definition frame_explained (i : bytes) (x : parse_error) : Prop :=
  explained i x \/
  exists size r after, i = le 4 size ++ r ++ after /\ u32 size /\ size = zlen r + 4 /\
    firstn 2 r <> le 2 0xF1FA /\ x = ENom r KTag.

(** A frame starts here. *)
Definition starts_frame (c : cfg) (r : bytes) : Prop :=
  exists f e r', frame_l (kept_error c) f e /\ r = e ++ r'.

(** The errors that are declared but never returned for a file.  An
    [InvalidPropertyType] stays in the user data (C18). *)
Definition unused (x : parse_error) : Prop :=
  match x with
  | EDwordToUsize _ | EInvalidChunkSize _ | EInvalidPropertyType _ | ENom _ KMany1 => True
  | _ => False
  end.
