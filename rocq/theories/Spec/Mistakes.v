(** The first mistake in the properties of a user data chunk.  [.._bad i err]:
    the bytes [i], read from the front, fail to be such a thing, and [err] tells
    where and why: the data end within a number or a text (the bytes from there
    on), a text is not UTF-8 (where), a type code is unknown (which). *)
From Verif.Model Require Import Chunks.
From Verif.Spec Require Import Bytes Format Utf8Spec.

(** [i] ends within its first [n] bytes. *)
Definition ends (n : Z) (i : bytes) (err : nom_err) : Prop :=
  zlen i < n /\ err = NError (ENom i KEof).

(** Numbers of the given widths, one after the other *)
Fixpoint numbers_bad (widths : list Z) (i : bytes) (err : nom_err) : Prop :=
  match widths with
  | [] => False
  | n :: widths' => ends n i err \/ exists b i', i = b ++ i' /\ zlen b = n /\ numbers_bad widths' i' err
  end.

Definition text_bad (i : bytes) (err : nom_err) : Prop :=
  ends 2 i err \/
  (exists n r, i = le 2 n ++ r /\ u16 n /\ ends n r err) \/
  (exists s r p len, i = le 2 (zlen s) ++ s ++ r /\ u16 (zlen s) /\ utf8_fault s p len /\
     err = NError (EUtf8 p len)).

(** The numbers a value of this type consists of *)
Definition number_type (t : Z) (widths : list Z) : Prop :=
  (In t [0x01; 0x02; 0x03] /\ widths = [1]) \/
  (In t [0x04; 0x05] /\ widths = [2]) \/
  (In t [0x06; 0x07; 0x0B] /\ widths = [4]) \/
  (In t [0x08; 0x09; 0x0C] /\ widths = [8]) \/
  (t = 0x0A /\ widths = [2; 2]) \/
  (In t [0x0E; 0x0F] /\ widths = [4; 4]) \/
  (t = 0x10 /\ widths = [4; 4; 4; 4]) \/
  (t = 0x13 /\ widths = [16]).

(** A value behind its type code; a value of type [t], without it (0: with it); a
    vector; a map; a property. *)
Inductive value_bad : bytes -> nom_err -> Prop :=
| VB_end i err : ends 2 i err -> value_bad i err
| VB_type t r : u16 t -> ~ 1 <= t <= 0x13 -> value_bad (le 2 t ++ r) (NFailure (EInvalidPropertyType t))
| VB_in t r err : u16 t -> t <> 0 -> element_bad t r err -> value_bad (le 2 t ++ r) err
with element_bad : Z -> bytes -> nom_err -> Prop :=
| EB_mixed i err : value_bad i err -> element_bad 0 i err
| EB_numbers t widths i err : number_type t widths -> numbers_bad widths i err -> element_bad t i err
| EB_text i err : text_bad i err -> element_bad 0x0D i err
| EB_vector i err : vector_bad i err -> element_bad 0x11 i err
| EB_map i err : map_bad i err -> element_bad 0x12 i err
with vector_bad : bytes -> nom_err -> Prop :=
| XB_end i err : numbers_bad [4; 2] i err -> vector_bad i err
| XB_type n t r : u32 n -> u16 t -> 0x13 < t ->
    vector_bad (le 4 n ++ le 2 t ++ r) (NFailure (EInvalidPropertyType t))
| XB_in n t v k e r err : u32 n -> u16 t -> 0 <= k < n -> vector_l v (le 4 k ++ le 2 t ++ e) ->
    element_bad t r err -> vector_bad (le 4 n ++ le 2 t ++ e ++ r) err
with map_bad : bytes -> nom_err -> Prop :=
| MB_end i err : numbers_bad [4; 4] i err -> map_bad i err
| MB_in id n l e r err : u32 id -> u32 n -> props_l l e -> zlen l < n -> property_bad r err ->
    map_bad (le 4 id ++ le 4 n ++ e ++ r) err
with property_bad : bytes -> nom_err -> Prop :=
| PB_name i err : text_bad i err -> property_bad i err
| PB_value name e r err : string_l name e -> value_bad r err -> property_bad (e ++ r) err.

(** The area that should start with [n] maps *)
Definition area_bad (area : bytes) (n : Z) (err : nom_err) : Prop :=
  exists ms e r, area = e ++ r /\ maps_l ms e /\ zlen ms < n /\ map_bad r err.
