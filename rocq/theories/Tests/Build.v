(** Small files written field by field, for witnesses and examples. *)
From Verif.Model Require Import Base.
From Verif.Spec Require Import Bytes Format.

Definition hdr (frames depth w h : Z) : bytes :=
  le 4 0 ++ le 2 0xA5E0 ++ le 2 frames ++ le 2 w ++ le 2 h ++ le 2 depth ++ le 4 1 ++ le 2 100 ++
  repeat 0 8 ++ le 1 0 ++ [0; 0; 0] ++ le 2 256 ++ le 1 1 ++ le 1 1 ++ les 2 0 ++ les 2 0 ++
  le 2 16 ++ le 2 16 ++ repeat 0 84.

(** A frame of 100 ms. *)
Definition frm (chunks : list bytes) : bytes :=
  let body := concat chunks in
  le 4 (zlen body + 16) ++ le 2 0xF1FA ++ le 2 (zlen chunks) ++ le 2 100 ++ [0; 0] ++
  le 4 (zlen chunks) ++ body.

Definition str (s : bytes) : bytes := le 2 (zlen s) ++ s.

Definition layer_ch (flags ty blend opacity : Z) (name : bytes) : bytes :=
  encode_chunk 0x2004
    (le 2 flags ++ le 2 ty ++ le 2 0 ++ le 2 0 ++ le 2 0 ++ le 2 blend ++ le 1 opacity ++ [0; 0; 0] ++
     str name ++ (if ty =? 2 then le 4 0 else [])).
(** [level] is the child level. *)
Definition layer_ch_at (level flags ty blend opacity : Z) (name : bytes) : bytes :=
  encode_chunk 0x2004
    (le 2 flags ++ le 2 ty ++ le 2 level ++ le 2 0 ++ le 2 0 ++ le 2 blend ++ le 1 opacity ++ [0; 0; 0] ++
     str name ++ (if ty =? 2 then le 4 0 else [])).

Definition cel_ch (layer x y opacity ty : Z) (content : bytes) : bytes :=
  encode_chunk 0x2005
    (le 2 layer ++ les 2 x ++ les 2 y ++ le 1 opacity ++ le 2 ty ++ les 2 0 ++ repeat 0 5 ++ content).
Definition raw_cel_ch (layer x y opacity w h : Z) (pixels : bytes) : bytes :=
  cel_ch layer x y opacity 0 (le 2 w ++ le 2 h ++ pixels).
Definition zip_cel_ch (layer x y opacity w h : Z) (data : bytes) : bytes :=
  cel_ch layer x y opacity 2 (le 2 w ++ le 2 h ++ data).
Definition linked_cel_ch (layer x y frame : Z) : bytes := cel_ch layer x y 255 1 (le 2 frame).

Definition tags_ch (tags : list (Z * Z * bytes)) : bytes :=
  encode_chunk 0x2018
    (le 2 (zlen tags) ++ repeat 0 8 ++
     flat_map (fun '(from, to, name) =>
       le 2 from ++ le 2 to ++ le 1 0 ++ le 2 0 ++ repeat 0 6 ++ [0; 0; 0] ++ le 1 0 ++ str name) tags).

Definition text_ch (s : bytes) : bytes := encode_chunk 0x2020 (le 4 1 ++ str s).
(** A properties area that claims to be [size] bytes long. *)
Definition properties_ch (size : Z) : bytes := encode_chunk 0x2020 (le 4 4 ++ le 4 size ++ le 4 0).
Definition slice_ch (name : bytes) : bytes :=
  encode_chunk 0x2022 (le 4 0 ++ le 4 0 ++ le 4 0 ++ str name).

(** One packet per element: entries to skip and colours. *)
Definition old_palette_ch (code : Z) (packets : list (Z * list (Z * Z * Z))) : bytes :=
  encode_chunk code
    (le 2 (zlen packets) ++
     flat_map (fun '(skip, cols) =>
       le 1 skip ++ le 1 (zlen cols mod 256) ++ flat_map (fun '(r, g, b) => [r; g; b]) cols) packets).
Definition palette_ch (size first last : Z) (cols : list (Z * Z * Z * Z)) : bytes :=
  encode_chunk 0x2019
    (le 4 size ++ le 4 first ++ le 4 last ++ repeat 0 8 ++
     flat_map (fun '(r, g, b, a) => le 2 0 ++ [r; g; b; a]) cols).
