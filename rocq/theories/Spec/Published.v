(** Where the published file format (ase-file-specs.md of Aseprite) and the
    layouts of Format.v, which are those the crate reads, differ.  No copy of
    that document is part of the repository; the order of the bit masks is also
    that of the fields in cel.rs:63-70 and their doc comments. *)
From Verif.Model Require Import Loader.
From Verif.Spec Require Import Bytes Utf8Spec Format Size.

(** ** Tilemap cels: the mask for X flips comes before that for Y flips *)
Definition published_content_l (ty : Z) (x : cel_content) (e : bytes) : Prop :=
  match x with
  | CImage im =>
      (ty = 0 /\ im_compressed im = false \/ ty = 2 /\ im_compressed im = true) /\
      u16 (im_width im) /\ u16 (im_height im) /\
      e = le 2 (im_width im) ++ le 2 (im_height im) ++ im_data im
  | CLinked frame => ty = 1 /\ u16 frame /\ exists ignored, e = le 2 frame ++ ignored
  | CTilemap width height bits id xf yf df data =>
      ty = 3 /\ u16 width /\ u16 height /\ u16 bits /\ u32 id /\ u32 xf /\ u32 yf /\ u32 df /\
      exists ignored, zlen ignored = 10 /\
      e = le 2 width ++ le 2 height ++ le 2 bits ++ le 4 id ++ le 4 xf ++ le 4 yf ++ le 4 df ++
          ignored ++ data
  | CUnknown code data =>
      e = data /\ (ty = 4 /\ code = 0 (* see C20 *) \/ 5 <= ty /\ code = ty)
  end.
Definition published_cel_l (x : cel_chunk) (e : bytes) : Prop :=
  exists ty ignored body,
    u16 (cc_layer_index x) /\ i16 (cc_x x) /\ i16 (cc_y x) /\ u8 (cc_opacity x) /\ u16 ty /\
    i16 (cc_z_index x) /\ zlen ignored = 5 /\ published_content_l ty (cc_content x) body /\
    cc_user_data x = None /\
    e = le 2 (cc_layer_index x) ++ les 2 (cc_x x) ++ les 2 (cc_y x) ++ le 1 (cc_opacity x) ++
        le 2 ty ++ les 2 (cc_z_index x) ++ ignored ++ body.

Definition is_tilemap (x : cel_chunk) : Prop :=
  match cc_content x with CTilemap _ _ _ _ _ _ _ _ => True | _ => False end.
(** The same cel with the two masks exchanged. *)
Definition exchange_content (x : cel_content) : cel_content :=
  match x with
  | CTilemap width height bits id xf yf df data => CTilemap width height bits id yf xf df data
  | _ => x
  end.
Definition exchange (x : cel_chunk) : cel_chunk :=
  {| cc_layer_index := cc_layer_index x; cc_x := cc_x x; cc_y := cc_y x;
     cc_opacity := cc_opacity x; cc_z_index := cc_z_index x;
     cc_content := exchange_content (cc_content x);
     cc_user_data := cc_user_data x |}.

(** ** Property values: a map inside a value has no key

    Only the maps of the properties area itself are preceded by a key, 0 for the
    properties of the user or the number of an extension.  A map that is the
    value of a property starts with the number of its properties; its key is
    taken to be 0.  Everything else is as in Format.v. *)
Definition plain (v : value) : Prop :=
  match v with VVector _ | VMixedVector _ | VPropertiesMap _ => False | _ => True end.
Definition plain_vector (v : vector) : Prop :=
  match v with VecMixed _ | VecVector _ | VecPropertiesMap _ => False | _ => True end.

Inductive published_value_l : value -> bytes -> Prop :=
| PV_plain v e : plain v -> value_l v e -> published_value_l v e
| PV_vector v e : published_vector_l v e -> published_value_l (VVector v) (le 2 0x11 ++ e)
| PV_map m e : published_nested_l m e -> published_value_l (VPropertiesMap m) (le 2 0x12 ++ e)
with published_vector_l : vector -> bytes -> Prop :=
| PX_plain v e : plain_vector v -> vector_l v e -> published_vector_l v e
| PX_mixed l e : u32 (zlen l) -> published_values_l l e ->
    published_vector_l (VecMixed l) (le 4 (zlen l) ++ le 2 0 ++ e)
| PX_vector l e : u32 (zlen l) -> published_vectors_l l e ->
    published_vector_l (VecVector l) (le 4 (zlen l) ++ le 2 0x11 ++ e)
| PX_map l e : u32 (zlen l) -> published_nesteds_l l e ->
    published_vector_l (VecPropertiesMap l) (le 4 (zlen l) ++ le 2 0x12 ++ e)
with published_nested_l : properties_map -> bytes -> Prop :=
| PN l e : u32 (zlen l) -> published_props_l l e ->
    published_nested_l (PropMap l 0) (le 4 (zlen l) ++ e)
with published_props_l : list property -> bytes -> Prop :=
| PP_nil : published_props_l [] []
| PP_cons name v l e1 e2 e3 : string_l name e1 -> published_value_l v e2 -> published_props_l l e3 ->
    published_props_l (Prop_ name v :: l) (e1 ++ e2 ++ e3)
with published_values_l : list value -> bytes -> Prop :=
| PVS_nil : published_values_l [] []
| PVS_cons v l e1 e2 : published_value_l v e1 -> published_values_l l e2 ->
    published_values_l (v :: l) (e1 ++ e2)
with published_vectors_l : list vector -> bytes -> Prop :=
| PXS_nil : published_vectors_l [] []
| PXS_cons v l e1 e2 : published_vector_l v e1 -> published_vectors_l l e2 ->
    published_vectors_l (v :: l) (e1 ++ e2)
with published_nesteds_l : list properties_map -> bytes -> Prop :=
| PNS_nil : published_nesteds_l [] []
| PNS_cons m l e1 e2 : published_nested_l m e1 -> published_nesteds_l l e2 ->
    published_nesteds_l (m :: l) (e1 ++ e2).

(** The maps of a properties area. *)
Inductive published_maps_l : list properties_map -> bytes -> Prop :=
| PM_nil : published_maps_l [] []
| PM_cons id l ms e1 e2 : u32 id -> u32 (zlen l) -> published_props_l l e1 ->
    published_maps_l ms e2 ->
    published_maps_l (PropMap l id :: ms) ((le 4 id ++ le 4 (zlen l) ++ e1) ++ e2).

(** The number of maps inside a value. *)
Fixpoint inner_maps (v : value) : Z :=
  match v with
  | VVector x => inner_maps_vector x
  | VMixedVector l => total inner_maps l
  | VPropertiesMap m => 1 + inner_maps_map m
  | _ => 0
  end
with inner_maps_vector (x : vector) : Z :=
  match x with
  | VecMixed l => total inner_maps l
  | VecVector l => total inner_maps_vector l
  | VecPropertiesMap l => total (fun m => 1 + inner_maps_map m) l
  | _ => 0
  end
with inner_maps_map (m : properties_map) : Z :=
  match m with PropMap l _ => total inner_maps_prop l end
with inner_maps_prop (p : property) : Z :=
  match p with Prop_ _ v => inner_maps v end.
(** .. and in the maps of a properties area *)
Definition nested_maps (ms : list properties_map) : Z := total inner_maps_map ms.

(** ** Old palettes of type 0x0011: components from 0 to 63 *)
Definition six_bit (ch : old_palette_chunk) : Prop :=
  Forall (fun p => Forall (fun x => 0 <= rgb_red x < 64 /\ 0 <= rgb_green x < 64 /\ 0 <= rgb_blue x < 64)
                          (pk_colors p)) (op_packets ch).
(** 0, .., 63 spread over 0, .., 255 *)
Definition widen (v : Z) : Z := 4 * v + v / 16.

(** ** The fields of the header that loading and drawing depend on *)
Definition same_picture_header (h h' : header) : Prop :=
  h_width h = h_width h' /\ h_height h = h_height h' /\ h_color_depth h = h_color_depth h' /\
  h_transparent_index h = h_transparent_index h'.
