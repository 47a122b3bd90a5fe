(** How many values a parse result consists of: list elements of every kind,
    each counted once.  Strings, image data and other byte slices are borrowed
    from the input and do not count. *)
From Verif.Model Require Import File.

Definition total {A} (w : A -> Z) (l : list A) : Z := fold_right (fun x n => w x + n) 0 l.

(** A property value and everything inside it. *)
Fixpoint value_items (v : value) : Z :=
  match v with
  | VVector x => 1 + vector_items x
  | VMixedVector l => 1 + total value_items l
  | VPropertiesMap m => 1 + map_items m
  | _ => 1
  end
with vector_items (x : vector) : Z :=
  match x with
  | VecMixed l => total value_items l
  | VecVector l => total vector_items l + zlen l
  | VecPropertiesMap l => total map_items l + zlen l
  | VecBool l => zlen l
  | VecInt8 l | VecUint8 l | VecInt16 l | VecUint16 l | VecInt32 l | VecUint32 l
  | VecInt64 l | VecUint64 l | VecFloat l | VecDouble l | VecUuid l => zlen l
  | VecFixed l => zlen l
  | VecString l => zlen l
  | VecPoint l => zlen l | VecSize l => zlen l | VecRect l => zlen l
  end
with map_items (m : properties_map) : Z :=
  match m with PropMap l _ => total prop_items l end
with prop_items (p : property) : Z :=
  match p with Prop_ _ v => value_items v end.

Definition user_data_items (u : user_data_chunk) : Z :=
  match ud_properties_maps u with
  | Some (inl (_, ms)) => total (fun m => 1 + map_items m) ms
  | _ => 0
  end.
Definition chunk_items (x : chunk) : Z :=
  match x with
  | ChPalette0004 p | ChPalette0011 p => total (fun q => 1 + zlen (pk_colors q)) (op_packets p)
  | ChExternalFiles y => zlen (efc_files y)
  | ChTags t => zlen (tc_tags t)
  | ChPalette p => zlen (pc_entries p)
  | ChUserData u => user_data_items u
  | ChSlice s => zlen (sc_slice_keys s)
  | _ => 0
  end.
Definition raw_frame_items (f : raw_frame) : Z := total (fun x => 1 + chunk_items x) (rf_chunks f).
Definition raw_items (f : raw_file) : Z := total (fun fr => 1 + raw_frame_items fr) (rw_frames f).

(** The places for cels in the frames of a file: [frames[k].cels] summed up. *)
Definition cel_slots (f : file) : Z := total (fun fr => zlen (fr_cels fr)) (f_frames f).
