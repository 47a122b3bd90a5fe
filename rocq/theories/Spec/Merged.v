(** Layers merged into one. *)
From Coq Require Import Sorting.Sorted.
From Verif.Model Require Import Loader.
From Verif.Spec Require Import Bytes RenderSpec Convert.

(** A layer for the merged pictures *)
Definition base_layer : layer :=
  {| ly_name := []; ly_opacity := 255; ly_blend_mode := BNormal; ly_visible := true; ly_layer_type := LNormal |}.
(** A cel of this layer that shows image [j] on the whole canvas *)
Definition base_cel (s : ase_file) (j : Z) : frame_cel :=
  {| fc_origin := (0, 0); fc_size := canvas s; fc_layer_index := 0; fc_image_index := j |}.
Definition picture (s : ase_file) (r : bytes) : image :=
  {| im_width := canvas_width s; im_height := canvas_height s; im_data := r; im_compressed := false |}.

(** The cels of the layers from [n] on, if these get the numbers from 1 on *)
Definition renumbered (n : Z) (cel : frame_cel) : frame_cel :=
  {| fc_origin := fc_origin cel; fc_size := fc_size cel; fc_layer_index := fc_layer_index cel - n + 1;
     fc_image_index := fc_image_index cel |}.
Definition upper_cels (n : Z) (cels : list frame_cel) : list frame_cel :=
  map (renumbered n) (filter (fun cel => n <=? fc_layer_index cel) cels).
Fixpoint merged_frames (n : Z) (s : ase_file) (j : Z) (frames : list sframe) : list sframe :=
  match frames with
  | [] => []
  | f :: rest =>
      {| sf_duration := sf_duration f; sf_origin := sf_origin f; sf_cels := base_cel s j :: upper_cels n (sf_cels f) |}
      :: merged_frames n s (j + 1) rest
  end.
(** The sprite with one layer of pictures instead of the layers below [n] *)
Definition merged (n : Z) (s : ase_file) (pictures : list bytes) : ase_file :=
  {| af_file := af_file s; af_layers := base_layer :: skipn (Z.to_nat n) (af_layers s);
     af_frames := merged_frames n s (zlen (af_images s)) (af_frames s); af_tags := af_tags s;
     af_images := af_images s ++ map (picture s) pictures |}.
(** The base and the layers of the selection *)
Definition merged_selection (n : Z) (sel : layer_selection) : layer_selection :=
  match sel with
  | SelMask mask => SelMask (true :: skipn (Z.to_nat n) mask)
  | _ => sel
  end.
(** [below] selects the layers of [sel] below [n]. *)
Definition lower_selection (s : ase_file) (n : Z) (sel below : layer_selection) : Prop :=
  forall j l, nth_error (api_layers s) j = Some l ->
    chosen below (Z.of_nat j) l = (Z.of_nat j <? n) && chosen sel (Z.of_nat j) l.
(** An empty canvas *)
Definition blank (s : ase_file) : bytes := repeat 0 (Z.to_nat (canvas_size s)).

(** The cels of all frames are in the order of their layers and have images. *)
Definition in_order (s : ase_file) : Prop :=
  forall sf, In sf (af_frames s) ->
    StronglySorted (fun a b => fc_layer_index a <= fc_layer_index b) (sf_cels sf) /\
    forall cel, In cel (sf_cels sf) -> fc_image_index cel < zlen (af_images s).
