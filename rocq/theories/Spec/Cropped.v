(** A part of the canvas. *)
From Verif.Model Require Import Loader.
From Verif.Spec Require Import Bytes Format RenderSpec.

(** ** Sprites *)
Definition shifted_cel (dx dy : Z) (cel : frame_cel) : frame_cel :=
  {| fc_origin := (fst (fc_origin cel) - dx, snd (fc_origin cel) - dy); fc_size := fc_size cel;
     fc_layer_index := fc_layer_index cel; fc_image_index := fc_image_index cel |}.
Definition shifted_frame (dx dy : Z) (sf : sframe) : sframe :=
  {| sf_duration := sf_duration sf; sf_origin := sf_origin sf; sf_cels := map (shifted_cel dx dy) (sf_cels sf) |}.
(** [s'] has another canvas, of [w] x [h] pixels; its corner is at [(dx, dy)] of
    the canvas of [s]. *)
Definition cropped (dx dy w h : Z) (s s' : ase_file) : Prop :=
  api_size s' = (w, h) /\ h_color_depth (f_header (af_file s')) = h_color_depth (f_header (af_file s)) /\
  f_palette (af_file s') = f_palette (af_file s) /\ api_layers s' = api_layers s /\ af_images s' = af_images s /\
  api_frames s' = map (shifted_frame dx dy) (api_frames s) /\ api_tags s' = api_tags s /\ api_slices s' = api_slices s /\
  f_user_data (af_file s') = f_user_data (af_file s).
Definition inside (dx dy w h : Z) (s : ase_file) : Prop :=
  0 <= dx /\ 0 <= dy /\ dx + w <= canvas_width s /\ dy + h <= canvas_height s.
(** [t'], of width [w], holds a part of [t], of width [W]. *)
Definition part_of (dx dy w h W : Z) (t t' : bytes) : Prop :=
  forall x y, 0 <= x < w -> 0 <= y < h -> pixel w t' x y = pixel W t (x + dx) (y + dy).

(** ** Files *)
Definition cropped_cel (dx dy : Z) (x : cel_chunk) : cel_chunk :=
  {| cc_layer_index := cc_layer_index x; cc_x := cc_x x - dx; cc_y := cc_y x - dy; cc_opacity := cc_opacity x;
     cc_z_index := cc_z_index x; cc_content := cc_content x; cc_user_data := cc_user_data x |}.
Definition cropped_chunk (dx dy : Z) (x : chunk) : chunk := match x with ChCel y => ChCel (cropped_cel dx dy y) | _ => x end.
Definition cropped_file (dx dy w h : Z) (raw : raw_file) : raw_file :=
  {| rw_header :=
       let hd := rw_header raw in
       {| h_file_size := h_file_size hd; h_frames := h_frames hd; h_width := w; h_height := h; h_color_depth := h_color_depth hd;
          h_flags := h_flags hd; h_speed := h_speed hd; h_transparent_index := h_transparent_index hd; h_color_count := h_color_count hd;
          h_pixel_width := h_pixel_width hd; h_pixel_height := h_pixel_height hd; h_grid_x := h_grid_x hd; h_grid_y := h_grid_y hd;
          h_grid_width := h_grid_width hd; h_grid_height := h_grid_height hd |};
     rw_frames := map (fun fr => {| rf_duration := rf_duration fr; rf_chunks := map (cropped_chunk dx dy) (rf_chunks fr) |}) (rw_frames raw) |}.
(** The new positions fit. *)
Definition can_crop (dx dy w h : Z) (raw : raw_file) : Prop :=
  u16 w /\ u16 h /\
  forall fr x, In fr (rw_frames raw) -> In (ChCel x) (rf_chunks fr) -> i16 (cc_x x - dx) /\ i16 (cc_y x - dy).
