(** Model of the enumerations: src/binary/blend_mode.rs, color_depth.rs,
    chunk_type.rs, and the enums of chunks/{cel,color_profile,external_files,
    layer,tags}.rs.

    [strum::FromRepr] (Cargo.toml:19, strum 0.27): [from_repr(d)] returns the
    variant with discriminant [d]; a variant carrying fields is returned with
    all fields set to [Default::default()].  Hence the trailing [Unknown(_)]
    variant, whose implicit discriminant is one more than the last unit
    variant's, is produced as [Unknown(0)]. *)
From Verif.Model Require Export Base Nom Scalars.

(** blend_mode.rs:8-30 *)
Inductive blend_mode :=
| BNormal | BMultiply | BScreen | BOverlay | BDarken | BLighten | BColorDodge
| BColorBurn | BHardLight | BSoftLight | BDifference | BExclusion | BHue
| BSaturation | BColor | BLuminosity | BAddition | BSubtract | BDivide
| BUnknown (w : Z).

(** The derived [BlendMode::from_repr] (blend_mode.rs:8). *)
Definition blend_mode_from_repr (n : Z) : option blend_mode :=
  match n with
  | 0 => Some BNormal | 1 => Some BMultiply | 2 => Some BScreen
  | 3 => Some BOverlay | 4 => Some BDarken | 5 => Some BLighten
  | 6 => Some BColorDodge | 7 => Some BColorBurn | 8 => Some BHardLight
  | 9 => Some BSoftLight | 10 => Some BDifference | 11 => Some BExclusion
  | 12 => Some BHue | 13 => Some BSaturation | 14 => Some BColor
  | 15 => Some BLuminosity | 16 => Some BAddition | 17 => Some BSubtract
  | 18 => Some BDivide
  | 19 => Some (BUnknown 0)
  | _ => None
  end.

(** blend_mode.rs:32-36 *)
Definition blend_mode_from (w : Z) : blend_mode :=
  match blend_mode_from_repr w with Some m => m | None => BUnknown w end.

(** blend_mode.rs:38-41 *)
Definition parse_blend_mode : parser blend_mode := fun input =>
  let* (input, w) := word input in Ok (input, blend_mode_from w).

(** color_depth.rs:10-17 *)
Inductive color_depth := Rgba | Grayscale | Indexed | DUnknown (w : Z).

(** color_depth.rs:20-27 *)
Definition bpp (d : color_depth) : Z :=
  match d with Rgba => 32 | Grayscale => 16 | Indexed => 8 | DUnknown b => b end.

(** color_depth.rs:28-35 *)
Definition pixel_size (d : color_depth) : option Z :=
  match d with Rgba => Some 4 | Grayscale => Some 2 | Indexed => Some 1 | DUnknown _ => None end.

(** color_depth.rs:38-47 *)
Definition color_depth_from (b : Z) : color_depth :=
  match b with 32 => Rgba | 16 => Grayscale | 8 => Indexed | _ => DUnknown b end.

(** color_depth.rs:49-52 *)
Definition parse_color_depth : parser color_depth := fun input =>
  let* (input, b) := word input in Ok (input, color_depth_from b).

(** chunk_type.rs:6-22 *)
Inductive chunk_type :=
| TPalette0004 | TPalette0011 | TLayer | TCel | TCelExtra | TColorProfile
| TExternalFile | TMask | TPath | TTags | TPalette | TUserData | TSlice | TTileset.

(** The derived [ChunkType::from_repr] (chunk_type.rs:6). *)
Definition chunk_type_from_repr (n : Z) : option chunk_type :=
  if n =? 0x0004 then Some TPalette0004
  else if n =? 0x0011 then Some TPalette0011
  else if n =? 0x2004 then Some TLayer
  else if n =? 0x2005 then Some TCel
  else if n =? 0x2006 then Some TCelExtra
  else if n =? 0x2007 then Some TColorProfile
  else if n =? 0x2008 then Some TExternalFile
  else if n =? 0x2016 then Some TMask
  else if n =? 0x2017 then Some TPath
  else if n =? 0x2018 then Some TTags
  else if n =? 0x2019 then Some TPalette
  else if n =? 0x2020 then Some TUserData
  else if n =? 0x2022 then Some TSlice
  else if n =? 0x2023 then Some TTileset
  else None.

(** chunk_type.rs:24-26; [Result<ChunkType, u16>] is a sum. *)
Definition parse_chunk_type : parser (chunk_type + Z) :=
  pmap word (fun n => match chunk_type_from_repr n with Some t => inl t | None => inr n end).

(** chunks/cel.rs:29-41 *)
Inductive cel_type :=
| CTRawImageData | CTLinkedCel | CTCompressedImage | CTCompressedTilemap | CTUnknown (w : Z).

(** The derived [CelType::from_repr] (chunks/cel.rs:29). *)
Definition cel_type_from_repr (n : Z) : option cel_type :=
  match n with
  | 0 => Some CTRawImageData | 1 => Some CTLinkedCel | 2 => Some CTCompressedImage
  | 3 => Some CTCompressedTilemap | 4 => Some (CTUnknown 0)
  | _ => None
  end.

(** chunks/cel.rs:43-47 *)
Definition cel_type_from (w : Z) : cel_type :=
  match cel_type_from_repr w with Some t => t | None => CTUnknown w end.

(** chunks/color_profile.rs:20-26 *)
Inductive color_profile_type := CPTNone | CPTSrgb | CPTEmbeddedICC | CPTUnknown (w : Z).

(** The derived [ColorProfileType::from_repr] (chunks/color_profile.rs:20). *)
Definition color_profile_type_from_repr (n : Z) : option color_profile_type :=
  match n with
  | 0 => Some CPTNone | 1 => Some CPTSrgb | 2 => Some CPTEmbeddedICC
  | 3 => Some (CPTUnknown 0) | _ => None
  end.

(** chunks/color_profile.rs:44-45 *)
Definition color_profile_type_from (w : Z) : color_profile_type :=
  match color_profile_type_from_repr w with Some t => t | None => CPTUnknown w end.

(** chunks/external_files.rs:26-33 *)
Inductive external_file_type :=
| EFPalette | EFTileset | EFExtensionName | EFUnknown (b : Z).

(** The derived [ExternalFileType::from_repr] (chunks/external_files.rs:26). *)
Definition external_file_type_from_repr (n : Z) : option external_file_type :=
  match n with
  | 0 => Some EFPalette | 1 => Some EFTileset | 2 => Some EFExtensionName
  | 3 => Some (EFUnknown 0) | _ => None
  end.

(** chunks/external_files.rs:35-39 *)
Definition external_file_type_from (b : Z) : external_file_type :=
  match external_file_type_from_repr b with Some t => t | None => EFUnknown b end.

(** chunks/layer.rs:37-43 *)
Inductive layer_type := LNormal | LGroup | LTilemap | LUnknown (w : Z).

(** chunks/layer.rs:45-54 *)
Definition layer_type_from (w : Z) : layer_type :=
  match w with 0 => LNormal | 1 => LGroup | 2 => LTilemap | _ => LUnknown w end.

(** The derived [PartialEq] on [LayerType] (chunks/layer.rs:37). *)
Definition layer_type_eqb (a b : layer_type) : bool :=
  match a, b with
  | LNormal, LNormal | LGroup, LGroup | LTilemap, LTilemap => true
  | LUnknown x, LUnknown y => x =? y
  | _, _ => false
  end.

(** chunks/tags.rs:30-37 *)
Inductive animation_direction := DForward | DReverse | DPingPong | DPingPongReverse | DirUnknown (b : Z).

(** The derived [AnimationDirection::from_repr] (chunks/tags.rs:30). *)
Definition animation_direction_from_repr (n : Z) : option animation_direction :=
  match n with
  | 0 => Some DForward | 1 => Some DReverse | 2 => Some DPingPong
  | 3 => Some DPingPongReverse | 4 => Some (DirUnknown 0) | _ => None
  end.

(** chunks/tags.rs:39-43 *)
Definition animation_direction_from (b : Z) : animation_direction :=
  match animation_direction_from_repr b with Some d => d | None => DirUnknown b end.

(** bitflags 2: [from_bits_truncate(b)] keeps the bits of the union of all
    declared flags, [contains(f)] tests that all bits of [f] are set. *)
Definition from_bits_truncate (all b : Z) : Z := Z.land b all.
Definition contains (b f : Z) : bool := Z.land b f =? f.
