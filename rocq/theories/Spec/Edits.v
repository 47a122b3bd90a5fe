(** Changes to a file that must not, or only in a known way, change what is
    loaded and drawn. *)
From Verif.Model Require Import Loader.
From Verif.Spec Require Import Bytes FileSpec LoaderSpec RenderSpec Published.

(** ** The same sprite *)
(** Whatever can be asked of [s] and [s'] has the same answer, except for the
    header. *)
Definition same_sprite (c : cfg) (s s' : ase_file) : Prop :=
  api_size s = api_size s' /\ api_layers s = api_layers s' /\ api_frames s = api_frames s' /\
  api_tags s = api_tags s' /\ api_slices s = api_slices s' /\
  api_image_count s = api_image_count s' /\
  f_layers (af_file s) = f_layers (af_file s') /\ f_frames (af_file s) = f_frames (af_file s') /\
  f_tags (af_file s) = f_tags (af_file s') /\ f_palette (af_file s) = f_palette (af_file s') /\
  f_user_data (af_file s) = f_user_data (af_file s') /\
  forall inflate,
    (forall j target, load_image c inflate s j target = load_image c inflate s' j target) /\
    forall k target sel, render_frame c inflate s k target sel = render_frame c inflate s' k target sel.
(** The same sprite, or the same failure *)
Definition same_outcome (c : cfg) (a b : out load_sprite_error ase_file) : Prop :=
  match a, b with
  | Ok s, Ok s' => same_sprite c s s'
  | Err e, Err e' => e = e'
  | Panic p, Panic p' => p = p'
  | _, _ => False
  end.

(** ** Changes to the chunks of a frame *)
Definition is_user_data (x : chunk) : Prop := match x with ChUserData _ => True | _ => False end.
(** What a chunk contributes to. *)
Inductive role := Layers | Cels | Tags | Slices | Colours | Nothing.
Definition role_of (x : chunk) : role :=
  match x with
  | ChLayer _ => Layers
  | ChCel _ => Cels
  | ChTags _ => Tags
  | ChSlice _ => Slices
  | ChPalette0004 _ | ChPalette0011 _ | ChPalette _ => Colours
  | ChCelExtra _ | ChColorProfile _ | ChExternalFiles _ | ChMask _ | ChPath | ChUserData _
  | ChTileset _ | ChUnsupported _ => Nothing
  end.

(** [x :: us] is a chunk with the user data chunks that follow it. *)
Definition block (x : chunk) (us : list chunk) : Prop := ~ is_user_data x /\ Forall is_user_data us.
(** The list does not start with user data, which would belong to the chunk before. *)
Definition fresh_start (b : list chunk) : Prop := match b with x :: _ => ~ is_user_data x | [] => True end.

(** Blocks that contribute nothing are inserted. *)
Inductive padded (cs : list chunk) : list chunk -> Prop :=
| padded_none : padded cs cs
| padded_one a x us b : padded cs (a ++ b) -> role_of x = Nothing -> block x us -> fresh_start b ->
    padded cs (a ++ (x :: us) ++ b).
(** Neighbouring blocks with different contributions are exchanged. *)
Inductive reordered (cs : list chunk) : list chunk -> Prop :=
| reordered_none : reordered cs cs
| reordered_one a x us y vs b : reordered cs (a ++ (x :: us) ++ (y :: vs) ++ b) ->
    role_of x <> role_of y -> block x us -> block y vs -> fresh_start b ->
    reordered cs (a ++ (y :: vs) ++ (x :: us) ++ b).

Definition frames_by (R : list chunk -> list chunk -> Prop) (raw raw' : raw_file) : Prop :=
  Forall2 (fun fr fr' => rf_duration fr = rf_duration fr' /\ R (rf_chunks fr) (rf_chunks fr'))
          (rw_frames raw) (rw_frames raw').

(** ** Links *)
(** The image on layer [k] of frame number [p]. *)
Definition image_at (fs : list frame) (p k : Z) : option image :=
  match nth_error fs (Z.to_nat p) with
  | Some fr =>
      match nth_error (fr_cels fr) (Z.to_nat k) with
      | Some (Some x) => match cc_content x with CImage im => Some im | _ => None end
      | _ => None
      end
  | None => None
  end.
(** [y] is [x] except, if [x] is a link, that it may hold the linked image itself. *)
Definition unlinked (fs : list frame) (x y : cel_chunk) : Prop :=
  cc_layer_index y = cc_layer_index x /\ cc_x y = cc_x x /\ cc_y y = cc_y x /\
  (cc_content y = cc_content x \/
   exists p im, cc_content x = CLinked p /\ image_at fs p (cc_layer_index x) = Some im /\
     cc_content y = CImage im).
Definition unlinked_frames (fs fs' : list frame) : Prop :=
  Forall2 (fun fr fr' => fr_duration fr = fr_duration fr' /\
    Forall2 (fun o o' => match o, o' with
                         | Some x, Some y => unlinked fs x y
                         | None, None => True
                         | _, _ => False
                         end) (fr_cels fr) (fr_cels fr')) fs fs'.

(** ** Moving *)
Definition move (dx dy : Z) : (Z * Z) * (Z * Z) * option image * blend_mode * Z ->
    (Z * Z) * (Z * Z) * option image * blend_mode * Z :=
  fun '(origin, size, im, mode, opacity) =>
    ((fst origin + dx, snd origin + dy), size, im, mode, opacity).

(** ** More frames *)
(** [raw'] has the frames of [raw] and others after them, without layers and, in
    indexed sprites, without palettes. *)
Definition continued (raw raw' : raw_file) : Prop :=
  exists more, rw_frames raw' = rw_frames raw ++ more /\
    Forall (fun fr => Forall (fun x => role_of x <> Layers /\
              (h_color_depth (rw_header raw) = Indexed -> role_of x <> Colours)) (rf_chunks fr)) more.
