(** The first mistake in a file, for every kind of chunk.  As in
    Spec/Mistakes.v, [.._bad i err] says that [i], read from the front, fails to be
    such a thing, where and why; the bytes that are fine are given by the
    layouts of Spec/Format.v. *)
From Verif.Model Require Import RawFile.
From Verif.Spec Require Import Bytes Utf8Spec Format FileSpec Errors Mistakes.

Definition bad := bytes -> nom_err -> Prop.

(** Nothing can go wrong. *)
Definition fine : bad := fun _ _ => False.

(** Numbers (or ignored bytes) of these widths; after them [after], which may
    depend on the numbers *)
Fixpoint fields (widths : list nat) (after : list Z -> bad) : bad := fun i err =>
  match widths with
  | [] => after [] i err
  | n :: widths' =>
      ends (Z.of_nat n) i err \/
      exists v r, i = le n v ++ r /\ uint n v /\ fields widths' (fun vs => after (v :: vs)) r err
  end.

(** A text, and what follows *)
Definition text (after : bad) : bad := fun i err =>
  text_bad i err \/ exists s e r, i = e ++ r /\ string_l s e /\ after r err.

(** [n] things: one of them is bad, those before it are not. *)
Definition several {A} (L : A -> bytes -> Prop) (B : bad) (n : Z) : bad := fun i err =>
  exists l e r, i = e ++ r /\ seq_l L l e /\ zlen l < n /\ B r err.

(** Something that is there on a condition, and what follows *)
Definition if_ (b : bool) (B : bad -> bad) (after : bad) : bad := if b then B after else after.

(** A size of four bytes and that many bytes *)
Definition blob_bad : bad := fields [4%nat] (fun v => match v with [n] => ends n | _ => fine end).

(** Something is wrong with the numbers just read. *)
Definition wrong (e : parse_error) : bad := fun _ err => err = NFailure e.


(** ** Chunk data *)
Definition packet_bad : bad := fields [1; 1]%nat (fun v => match v with
  | [_; n] => several rgb_l (fields [1; 1; 1]%nat (fun _ => fine)) (if n =? 0 then 256 else n)
  | _ => fine end).
Definition old_palette_bad : bad := fields [2]%nat (fun v => match v with
  | [n] => several packet_l packet_bad n
  | _ => fine end).

Definition entry_bad : bad := fields [2; 1; 1; 1; 1]%nat (fun v => match v with
  | flags :: _ => if_ (Z.testbit flags 0) text fine
  | _ => fine end).
Definition palette_bad : bad := fields [4; 4]%nat (fun v => match v with
  | [size; first] =>
      if 256 <=? first then wrong (EPalette PFirstOOB)
      else fields [4]%nat (fun v => match v with
        | [last] =>
            if 256 <=? last then wrong (EPalette PLastOOB)
            else if last <? first then wrong (EPalette PFirstGtLast)
            else fields [8]%nat (fun _ => several palette_entry_l entry_bad size)
        | _ => fine end)
  | _ => fine end).

Definition layer_bad : bad := fields [2; 2; 2; 2; 2; 2; 1; 3]%nat (fun v => match v with
  | _ :: type :: _ => text (if type =? 2 then fields [4]%nat (fun _ => fine) else fine)
  | _ => fine end).

Definition cel_bad : bad := fields [2; 2; 2; 1; 2; 2; 5]%nat (fun v => match v with
  | [_; _; _; _; type; _; _] =>
      fields (if (type =? 0) || (type =? 2) then [2; 2]%nat
              else if type =? 1 then [2]%nat
              else if type =? 3 then [2; 2; 2; 4; 4; 4; 4; 10]%nat else []) (fun _ => fine)
  | _ => fine end).
Definition cel_extra_bad : bad := fields [4; 2; 2; 2; 2; 2; 2; 2; 2]%nat (fun _ => fine).

Definition color_profile_bad : bad := fields [2; 2; 2; 2; 8]%nat (fun v => match v with
  | type :: _ => if type =? 2 then blob_bad else fine
  | _ => fine end).

Definition external_file_bad : bad := fields [4; 1; 7]%nat (fun _ => text fine).
Definition external_files_bad : bad := fields [4; 8]%nat (fun v => match v with
  | n :: _ => several external_file_l external_file_bad n
  | _ => fine end).

Definition mask_bad : bad := fields [2; 2; 2; 2; 8]%nat (fun _ => text fine).

Definition tag_bad : bad := fields [2; 2]%nat (fun v => match v with
  | [from; to] =>
      if to <? from then wrong (EInvalidFrameRange from to)
      else fields [1; 2; 6; 3; 1]%nat (fun _ => text fine)
  | _ => fine end).
Definition tags_bad : bad := fields [2; 8]%nat (fun v => match v with
  | n :: _ => several tag_l tag_bad n
  | _ => fine end).

Definition slice_key_bad (flags : Z) : bad :=
  fields ([4; 4; 4; 4; 4]%nat ++ (if Z.testbit flags 0 then [4; 4; 4; 4]%nat else []) ++
          (if Z.testbit flags 1 then [4; 4]%nat else [])) (fun _ => fine).
Definition slice_bad : bad := fields [4; 4; 4]%nat (fun v => match v with
  | [n; flags; _] => text (several (slice_key_l flags) (slice_key_bad flags) n)
  | _ => fine end).

Definition tileset_bad : bad := fields [4; 4; 4; 2; 2; 2; 14]%nat (fun v => match v with
  | _ :: flags :: _ =>
      text (fields (if Z.testbit flags 0 then [4; 4]%nat else []) (fun _ =>
              if Z.testbit flags 1 then blob_bad else fine))
  | _ => fine end).

(** A mistake within the maps is kept (C111).  The size of the area counts the
    two numbers before it; in debug builds a smaller one is a panic. *)
Definition area_end (c : cfg) : bad := fields [4; 4]%nat (fun v => match v with
  | [size; _] =>
      if 8 <=? size then ends (size - 8)
      else if debug c then fine else fun r err => err = NError (ENom r KEof)
  | _ => fine end).
Definition user_data_bad (c : cfg) : bad := fields [4]%nat (fun v => match v with
  | [flags] =>
      if_ (Z.testbit flags 0) text
        (fields (if Z.testbit flags 1 then [1; 1; 1; 1]%nat else []) (fun _ =>
           if Z.testbit flags 2 then area_end c else fine))
  | _ => fine end).

Definition data_bad (c : cfg) (code : Z) : bad :=
  if (code =? 0x0004) || (code =? 0x0011) then old_palette_bad
  else if code =? 0x2004 then layer_bad
  else if code =? 0x2005 then cel_bad
  else if code =? 0x2006 then cel_extra_bad
  else if code =? 0x2007 then color_profile_bad
  else if code =? 0x2008 then external_files_bad
  else if code =? 0x2016 then mask_bad
  else if code =? 0x2018 then tags_bad
  else if code =? 0x2019 then palette_bad
  else if code =? 0x2020 then user_data_bad c
  else if code =? 0x2022 then slice_bad
  else if code =? 0x2023 then tileset_bad
  else fine.

(** ** Chunks, frames, files *)

(** A size of four bytes, which counts itself, and the rest of that many bytes *)
Definition sized (inside : bad) : bad := fields [4]%nat (fun v => match v with
  | [size] =>
      if size <? 4 then wrong (EInvalidFrameSize size)
      else fun r err => ends (size - 4) r err \/
        exists e r', r = e ++ r' /\ zlen e = size - 4 /\ inside e err
  | _ => fine end).

Definition chunk_bad (c : cfg) : bad := sized (fields [2]%nat (fun v => match v with
  | [code] => data_bad c code
  | _ => fine end)).

Definition frame_bad (c : cfg) : bad := sized (fun e err =>
  (firstn 2 e <> le 2 0xF1FA /\ err = NError (ENom e KTag)) \/
  exists r, e = le 2 0xF1FA ++ r /\
    fields [2; 2; 2; 4]%nat (fun v => match v with
      | [old; _; _; new] => several (chunk_l area_bad) (chunk_bad c) (if new =? 0 then old else new)
      | _ => fine end) r err).

(** The error for a whole file: that of the header or of the first frame; in
    later frames only the failures are reported as such, and otherwise that the file
    does not end before that frame. *)
Definition file_bad (c : cfg) (i : bytes) (err : nom_err) : Prop :=
  (exists x, header_error i x /\ err = NError x) \/
  exists h fs e1 e2 r x, header_l h e1 /\ seq_l (frame_l area_bad) fs e2 /\ i = e1 ++ e2 ++ r /\
    frame_bad c r x /\
    (fs <> [] -> r <> []) /\
    err = match fs, x with _ :: _, NError _ => NError (ENom r KEof) | _, _ => x end.

(** All chunks can be read, but not put together: the palette is wrong, or the
    first cel that names no layer is too far off.  (One that is off by one is a
    panic, C01.) *)
Definition content_bad (raw : raw_file) (err : nom_err) : Prop :=
  (exists e, palette_of raw = Err e /\ err = NFailure (EPalette e)) \/
  (exists pal before y after, palette_of raw = Ok pal /\ frame_cels raw = before ++ y :: after /\
     Forall (fun z => cc_layer_index z < layer_count raw) before /\
     layer_count raw < cc_layer_index y /\ err = NFailure ELayerIndexOutOfBounds).

Definition first_mistake (c : cfg) (i : bytes) (err : nom_err) : Prop :=
  file_bad c i err \/ exists raw, raw_file_l area_bad raw i /\ content_bad raw err.
