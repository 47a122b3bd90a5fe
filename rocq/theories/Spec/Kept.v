(** What a frame is drawn from, and sprites with only that. *)
From Verif.Model Require Import Loader.
From Verif.Spec Require Import Bytes RenderSpec.

(** The image of a cel *)
Definition image_of (s : ase_file) (cel : frame_cel) : option image :=
  if fc_image_index cel <? 0 then None else nth_error (af_images s) (Z.to_nat (fc_image_index cel)).

(** The image, place and size of a drawn cel, the blend mode and opacity of its
    layer *)
Record drawing := { dr_image : option image; dr_origin : Z * Z; dr_size : Z * Z; dr_mode : blend_mode; dr_opacity : Z }.
Definition drawings (s : ase_file) (sel : layer_selection) (cels : list frame_cel) : list drawing :=
  flat_map (fun cel => match drawn s sel cel with
    | Some l => [{| dr_image := image_of s cel; dr_origin := fc_origin cel; dr_size := fc_size cel;
                    dr_mode := ly_blend_mode l; dr_opacity := ly_opacity l |}]
    | None => []
    end) cels.

(** ** A sprite with the selected layers only *)
(** Selected, and not a group *)
Definition wanted (sel : layer_selection) (k : Z) (l : layer) : bool :=
  match ly_layer_type l with LGroup => false | _ => chosen sel k l end.
Fixpoint wanted_from (sel : layer_selection) (k : Z) (ls : list layer) : list layer :=
  match ls with
  | [] => []
  | l :: ls' => (if wanted sel k l then [l] else []) ++ wanted_from sel (k + 1) ls'
  end.
(** These layers, switched on *)
Definition switched_on (l : layer) : layer :=
  {| ly_name := ly_name l; ly_opacity := ly_opacity l; ly_blend_mode := ly_blend_mode l; ly_visible := true;
     ly_layer_type := ly_layer_type l |}.
Definition kept_layers (sel : layer_selection) (s : ase_file) : list layer :=
  map switched_on (wanted_from sel 0 (af_layers s)).
(** The cels of these layers, with the new numbers of the layers *)
Definition new_number (sel : layer_selection) (s : ase_file) (k : Z) : Z :=
  zlen (wanted_from sel 0 (firstn (Z.to_nat k) (af_layers s))).
Definition kept_cels (sel : layer_selection) (s : ase_file) (cels : list frame_cel) : list frame_cel :=
  flat_map (fun cel => match drawn s sel cel with
    | Some _ => [{| fc_origin := fc_origin cel; fc_size := fc_size cel;
                    fc_layer_index := new_number sel s (fc_layer_index cel); fc_image_index := fc_image_index cel |}]
    | None => []
    end) cels.
Definition kept (sel : layer_selection) (s : ase_file) : ase_file :=
  {| af_file := af_file s; af_layers := kept_layers sel s;
     af_frames := map (fun f => {| sf_duration := sf_duration f; sf_origin := sf_origin f; sf_cels := kept_cels sel s (sf_cels f) |}) (af_frames s);
     af_tags := af_tags s; af_images := af_images s |}.
