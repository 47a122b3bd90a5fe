(** The borrowed slices (names, texts, data) held by parsed values. *)
From Verif.Model Require Import Loader.
From Verif.Spec Require Import Bytes.

Definition opt_list {A B} (f : A -> list B) (o : option A) : list B :=
  match o with Some a => f a | None => [] end.

(** Strings inside a property value, a vector, a map. *)
Fixpoint value_slices (v : value) : list bytes :=
  match v with
  | VString s => [s]
  | VVector x => vector_slices x
  | VMixedVector l => flat_map value_slices l
  | VPropertiesMap m => map_slices m
  | _ => []
  end
with vector_slices (v : vector) : list bytes :=
  match v with
  | VecMixed l => flat_map value_slices l
  | VecString l => l
  | VecVector l => flat_map vector_slices l
  | VecPropertiesMap l => flat_map map_slices l
  | _ => []
  end
with map_slices (m : properties_map) : list bytes :=
  match m with PropMap l _ => flat_map prop_slices l end
with prop_slices (p : property) : list bytes :=
  match p with Prop_ name v => name :: value_slices v end.

Definition user_data_slices (u : user_data_chunk) : list bytes :=
  opt_list (fun s => [s]) (ud_text u) ++
  opt_list (fun x => match x with
                     | inl (rest, ms) => rest :: flat_map map_slices ms
                     | inr _ => []
                     end) (ud_properties_maps u).
Definition layer_slices (l : layer_chunk) : list bytes :=
  lc_name l :: opt_list user_data_slices (lc_user_data l).
Definition content_slices (x : cel_content) : list bytes :=
  match x with
  | CImage im => [im_data im]
  | CLinked _ => []
  | CTilemap _ _ _ _ _ _ _ d => [d]
  | CUnknown _ d => [d]
  end.
Definition cel_slices (x : cel_chunk) : list bytes :=
  content_slices (cc_content x) ++ opt_list user_data_slices (cc_user_data x).
Definition tag_slices (t : tag_) : list bytes :=
  tg_color t :: tg_name t :: opt_list user_data_slices (tg_user_data t).
Definition slice_slices (s : slice_chunk) : list bytes :=
  sc_name s :: opt_list user_data_slices (sc_user_data s).

Definition chunk_slices (x : chunk) : list bytes :=
  match x with
  | ChPalette0004 _ | ChPalette0011 _ | ChPath | ChUnsupported _ => []
  | ChLayer l => layer_slices l
  | ChCel y => cel_slices y
  | ChCelExtra y => [ce_future y]
  | ChColorProfile y => match cp_profile y with CPEmbeddedICC d => [d] | _ => [] end
  | ChExternalFiles y => map ef_file_name (efc_files y)
  | ChMask y => [mk_name y; mk_data y]
  | ChTags t => flat_map tag_slices (tc_tags t)
  | ChPalette p => flat_map (fun en => opt_list (fun s => [s]) (pe_name en)) (pc_entries p)
  | ChUserData u => user_data_slices u
  | ChSlice s => slice_slices s
  | ChTileset t => ts_name t :: opt_list (fun d => [d]) (ts_tiles t)
  end.
Definition raw_slices (f : raw_file) : list bytes :=
  flat_map (fun fr => flat_map chunk_slices (rf_chunks fr)) (rw_frames f).

(** Everything reachable from the result of the low level [parse_file]. *)
Definition file_slices (f : file) : list bytes :=
  flat_map layer_slices (f_layers f) ++
  flat_map (fun fr => flat_map (opt_list cel_slices) (fr_cels fr)) (f_frames f) ++
  flat_map tag_slices (f_tags f) ++ flat_map slice_slices (f_slices f) ++
  opt_list user_data_slices (f_user_data f).
(** Everything reachable from the high level [AsepriteFile]. *)
Definition sprite_slices (s : ase_file) : list bytes :=
  file_slices (af_file s) ++ map ly_name (af_layers s) ++ map stag_name (af_tags s) ++
  map im_data (af_images s).
