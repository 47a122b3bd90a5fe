(** Model of src/binary/chunks/user_data.rs.

    Simplification: [f32]/[f64] property values are kept as their raw bit
    patterns (le_f32/le_f64 reinterpret the bits of le_u32/le_u64). *)
From Verif.Model Require Export Enums.

(** user_data.rs:22-28 *)
Definition UDF_HAS_TEXT : Z := 0x1.
Definition UDF_HAS_COLOR : Z := 0x2.
Definition UDF_HAS_PROPERTIES : Z := 0x4.
Definition UDF_ALL : Z := Z.lor UDF_HAS_TEXT (Z.lor UDF_HAS_COLOR UDF_HAS_PROPERTIES).

(** user_data.rs:37-47, 73-119: PropertiesMap, Property, Value and Vector.
    [VMixedVector] exists in the code but is never built by the parser. *)
Inductive value :=
| VBool (b : bool)
| VInt8 (z : Z) | VUint8 (z : Z) | VInt16 (z : Z) | VUint16 (z : Z)
| VInt32 (z : Z) | VUint32 (z : Z) | VInt64 (z : Z) | VUint64 (z : Z)
| VFixed (f : fixedp)
| VFloat (bits : Z) | VDouble (bits : Z)
| VString (s : bytes)
| VPoint (p : point) | VSize (s : size) | VRect (r : rect)
| VVector (v : vector)
| VMixedVector (l : list value)
| VPropertiesMap (m : properties_map)
| VUuid (z : Z)
with vector :=
| VecMixed (l : list value)
| VecBool (l : list bool)
| VecInt8 (l : list Z) | VecUint8 (l : list Z) | VecInt16 (l : list Z) | VecUint16 (l : list Z)
| VecInt32 (l : list Z) | VecUint32 (l : list Z) | VecInt64 (l : list Z) | VecUint64 (l : list Z)
| VecFixed (l : list fixedp)
| VecFloat (l : list Z) | VecDouble (l : list Z)
| VecString (l : list bytes)
| VecPoint (l : list point) | VecSize (l : list size) | VecRect (l : list rect)
| VecVector (l : list vector)
| VecPropertiesMap (l : list properties_map)
| VecUuid (l : list Z)
with properties_map :=
| PropMap (properties : list property) (extension_entry_id : Z)
with property :=
| Prop_ (name : bytes) (val : value).

(** user_data.rs:49-71 *)
Inductive property_type :=
| PTBool | PTInt8 | PTUint8 | PTInt16 | PTUint16 | PTInt32 | PTUint32 | PTInt64
| PTUint64 | PTFixed | PTFloat | PTDouble | PTString | PTPoint | PTSize | PTRect
| PTVector | PTPropertiesMap | PTUuid.

(** The derived [PropertyType::from_repr] (user_data.rs:49). *)
Definition property_type_from_repr (n : Z) : option property_type :=
  match n with
  | 0x01 => Some PTBool | 0x02 => Some PTInt8 | 0x03 => Some PTUint8
  | 0x04 => Some PTInt16 | 0x05 => Some PTUint16 | 0x06 => Some PTInt32
  | 0x07 => Some PTUint32 | 0x08 => Some PTInt64 | 0x09 => Some PTUint64
  | 0x0A => Some PTFixed | 0x0B => Some PTFloat | 0x0C => Some PTDouble
  | 0x0D => Some PTString | 0x0E => Some PTPoint | 0x0F => Some PTSize
  | 0x10 => Some PTRect | 0x11 => Some PTVector | 0x12 => Some PTPropertiesMap
  | 0x13 => Some PTUuid
  | _ => None
  end.

(** user_data.rs:30-35.  [properties_maps] stores the inner parse result: the
    remaining bytes of the maps area and the maps, or the inner error. *)
Record user_data_chunk := {
  ud_text : option bytes;
  ud_color : option color;
  ud_properties_maps : option (bytes * list properties_map + nom_err) }.

(** [map(byte, |b| b != 0)], user_data.rs:180, 215 *)
Definition parse_bool : parser bool := pmap byte (fun b => negb (b =? 0)).

(** user_data.rs:168-172, with the value parser as a parameter *)
Definition parse_property (pv : parser value) : parser property := fun input =>
  let* (input, name) := parse_string input in
  let* (input, value) := pv input in
  Ok (input, Prop_ name value).

Fixpoint
  (** user_data.rs:174-202 *)
  parse_value (c : cfg) (fuel : nat) (input : bytes) {struct fuel} : pres value :=
  match fuel with
  | O => Panic PFuel
  | S f =>
      let* (input, prop_type) := word input in
      match property_type_from_repr prop_type with
      | None => failure (EInvalidPropertyType prop_type)
      | Some pt =>
          match pt with
          | PTBool => pmap parse_bool VBool input
          | PTInt8 => pmap (le_int 1) VInt8 input
          | PTUint8 => pmap (le_uint 1) VUint8 input
          | PTInt16 => pmap (le_int 2) VInt16 input
          | PTUint16 => pmap (le_uint 2) VUint16 input
          | PTInt32 => pmap (le_int 4) VInt32 input
          | PTUint32 => pmap (le_uint 4) VUint32 input
          | PTInt64 => pmap (le_int 8) VInt64 input
          | PTUint64 => pmap (le_uint 8) VUint64 input
          | PTFixed => pmap fixed VFixed input
          | PTFloat => pmap (le_uint 4) VFloat input
          | PTDouble => pmap (le_uint 8) VDouble input
          | PTString => pmap parse_string VString input
          | PTPoint => pmap parse_point VPoint input
          | PTSize => pmap parse_size VSize input
          | PTRect => pmap parse_rect VRect input
          | PTVector => pmap (parse_vector c f) VVector input
          | PTPropertiesMap => pmap (parse_properties_map c f) VPropertiesMap input
          | PTUuid => pmap parse_uuid VUuid input
          end
      end
  end
with
  (** user_data.rs:204-245 *)
  parse_vector (c : cfg) (fuel : nat) (input : bytes) {struct fuel} : pres vector :=
  match fuel with
  | O => Panic PFuel
  | S f =>
      let* (input, len_elements) := parse_dword_as_usize c input in
      let* (input, prop_type) := word input in
      if prop_type =? 0 then
        pmap (count (parse_value c f) len_elements) VecMixed input
      else
      match property_type_from_repr prop_type with
      | None => failure (EInvalidPropertyType prop_type)
      | Some pt =>
          match pt with
          | PTBool => pmap (count parse_bool len_elements) VecBool input
          | PTInt8 => pmap (count (le_int 1) len_elements) VecInt8 input
          | PTUint8 => pmap (count (le_uint 1) len_elements) VecUint8 input
          | PTInt16 => pmap (count (le_int 2) len_elements) VecInt16 input
          | PTUint16 => pmap (count (le_uint 2) len_elements) VecUint16 input
          | PTInt32 => pmap (count (le_int 4) len_elements) VecInt32 input
          | PTUint32 => pmap (count (le_uint 4) len_elements) VecUint32 input
          | PTInt64 => pmap (count (le_int 8) len_elements) VecInt64 input
          | PTUint64 => pmap (count (le_uint 8) len_elements) VecUint64 input
          | PTFixed => pmap (count fixed len_elements) VecFixed input
          | PTFloat => pmap (count (le_uint 4) len_elements) VecFloat input
          | PTDouble => pmap (count (le_uint 8) len_elements) VecDouble input
          | PTString => pmap (count parse_string len_elements) VecString input
          | PTPoint => pmap (count parse_point len_elements) VecPoint input
          | PTSize => pmap (count parse_size len_elements) VecSize input
          | PTRect => pmap (count parse_rect len_elements) VecRect input
          | PTVector => pmap (count (parse_vector c f) len_elements) VecVector input
          | PTPropertiesMap =>
              pmap (count (parse_properties_map c f) len_elements) VecPropertiesMap input
          | PTUuid => pmap (count parse_uuid len_elements) VecUuid input
          end
      end
  end
with
  (** user_data.rs:155-166 *)
  parse_properties_map (c : cfg) (fuel : nat) (input : bytes) {struct fuel} : pres properties_map :=
  match fuel with
  | O => Panic PFuel
  | S f =>
      let* (input, extension_entry_id) := dword input in
      let* (input, num_props) := parse_dword_as_usize c input in
      let* (input, properties) := count (parse_property (parse_value c f)) num_props input in
      Ok (input, PropMap properties extension_entry_id)
  end.

(** user_data.rs:142-153.  [size_maps - 8] is an unchecked [usize] subtraction:
    it panics in debug builds and wraps in release builds when [size_maps < 8].
    The inner parse result is stored, not propagated. *)
Definition parse_properties_maps (c : cfg) : parser (bytes * list properties_map + nom_err) :=
  fun input =>
  let* (input, size_maps) := parse_dword_as_usize c input in
  let* (input, num_maps) := parse_dword_as_usize c input in
  let* n := usizec c (size_maps - 8) in
  let* (input, input_maps) := take n input in
  match count (parse_properties_map c (S (length input_maps))) num_maps input_maps with
  | Ok r => Ok (input, inl r)
  | Err e => Ok (input, inr e)
  | Panic p => Panic p
  end.

(** user_data.rs:121-140 *)
Definition parse_user_data_chunk (c : cfg) : parser user_data_chunk := fun input =>
  let* (input, flags) := dword input in
  let flags := from_bits_truncate UDF_ALL flags in
  let* (input, text) := cond (contains flags UDF_HAS_TEXT) parse_string input in
  let* (input, color) := cond (contains flags UDF_HAS_COLOR) parse_color input in
  let* (input, properties_maps) :=
    cond (contains flags UDF_HAS_PROPERTIES) (parse_properties_maps c) input in
  Ok (input, {| ud_text := text; ud_color := color; ud_properties_maps := properties_maps |}).
