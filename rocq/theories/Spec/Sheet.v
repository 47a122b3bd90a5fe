(** Frames of a sprite on one canvas. *)
From Verif.Model Require Import Loader.
From Verif.Spec Require Import Bytes RenderSpec.

Definition placed_cel (dx dy : Z) (cel : frame_cel) : frame_cel :=
  {| fc_origin := (fst (fc_origin cel) + dx, snd (fc_origin cel) + dy); fc_size := fc_size cel;
     fc_layer_index := fc_layer_index cel; fc_image_index := fc_image_index cel |}.
(** The number of a frame and where its corner is to be *)
Definition spot : Type := nat * Z * Z.
Definition sheet_cels (s : ase_file) (ps : list spot) : list frame_cel :=
  flat_map (fun '(k, dx, dy) => match nth_error (api_frames s) k with
                                | Some sf => map (placed_cel dx dy) (sf_cels sf)
                                | None => []
                                end) ps.
Definition in_place (s : ase_file) (p : spot) (x y : Z) : Prop :=
  let '(_, dx, dy) := p in dx <= x < dx + canvas_width s /\ dy <= y < dy + canvas_height s.
(** No two places overlap. *)
Fixpoint apart (s : ase_file) (ps : list spot) : Prop :=
  match ps with
  | [] => True
  | p :: ps' => (forall q x y, In q ps' -> in_place s p x y -> ~ in_place s q x y) /\ apart s ps'
  end.
(** The cels that are drawn do not leave the canvas. *)
Definition kept_inside (s : ase_file) (sel : layer_selection) (sf : sframe) : Prop :=
  forall cel l x y, In cel (sf_cels sf) -> drawn s sel cel = Some l -> covers cel x y = true ->
  0 <= x < canvas_width s /\ 0 <= y < canvas_height s.
(** The same layers and pictures *)
Definition same_material (s s' : ase_file) : Prop :=
  h_color_depth (f_header (af_file s')) = h_color_depth (f_header (af_file s)) /\ f_palette (af_file s') = f_palette (af_file s) /\
  api_layers s' = api_layers s /\ af_images s' = af_images s.
(** At the place [p], [t'] holds what [t] holds. *)
Definition holds_at (s s' : ase_file) (p : spot) (t t' : bytes) : Prop :=
  forall x y, 0 <= x < canvas_width s' -> 0 <= y < canvas_height s' -> in_place s p x y ->
  let '(_, dx, dy) := p in pixel (canvas_width s') t' x y = pixel (canvas_width s) t (x - dx) (y - dy).

(** All frames in a row *)
Definition in_a_row (s : ase_file) : list spot :=
  map (fun k => (k, Z.of_nat k * canvas_width s, 0)) (seq 0 (length (api_frames s))).
Definition strip (s : ase_file) : ase_file :=
  let f := af_file s in let hd := f_header f in
  {| af_file :=
       {| f_header :=
            {| h_file_size := h_file_size hd; h_frames := 1; h_width := zlen (api_frames s) * h_width hd; h_height := h_height hd;
               h_color_depth := h_color_depth hd; h_flags := h_flags hd; h_speed := h_speed hd; h_transparent_index := h_transparent_index hd;
               h_color_count := h_color_count hd; h_pixel_width := h_pixel_width hd; h_pixel_height := h_pixel_height hd;
               h_grid_x := h_grid_x hd; h_grid_y := h_grid_y hd; h_grid_width := h_grid_width hd; h_grid_height := h_grid_height hd |};
          f_palette := f_palette f; f_user_data := f_user_data f; f_layers := f_layers f; f_frames := f_frames f; f_tags := f_tags f;
          f_slices := f_slices f |};
     af_layers := af_layers s;
     af_frames := [{| sf_duration := 100; sf_origin := (0, 0); sf_cels := sheet_cels s (in_a_row s) |}];
     af_tags := []; af_images := af_images s |}.
