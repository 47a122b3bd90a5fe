(** Model of src/binary/header.rs. *)
From Verif.Model Require Export Enums.

(** header.rs:12: [0xA5E0u16.to_le_bytes()] *)
Definition HEADER_MAGIC_NUMBER : bytes := [0xE0; 0xA5].

(** header.rs:14-54 *)
Record header := {
  h_file_size : Z; h_frames : Z; h_width : Z; h_height : Z;
  h_color_depth : color_depth; h_flags : Z; h_speed : Z;
  h_transparent_index : Z; h_color_count : Z; h_pixel_width : Z;
  h_pixel_height : Z; h_grid_x : Z; h_grid_y : Z; h_grid_width : Z;
  h_grid_height : Z }.

(** header.rs:56-101 *)
Definition parse_header : parser header := fun input =>
  let* (rest, input) := take 128 input in
  let* (input, file_size) := dword input in
  let* (input, _) := tag HEADER_MAGIC_NUMBER input in
  let* (input, frames) := word input in
  let* (input, width) := word input in
  let* (input, height) := word input in
  let* (input, color_depth) := parse_color_depth input in
  let* (input, flags) := dword input in
  let* (input, speed) := word input in
  let* (input, _) := tag [0; 0; 0; 0] input in
  let* (input, _) := tag [0; 0; 0; 0] input in
  let* (input, transparent_index) := byte input in
  let* (input, _) := take 3 input in
  let* (input, color_count) := word input in
  let* (input, pixel_width) := byte input in
  let* (input, pixel_height) := byte input in
  let* (input, grid_x) := short input in
  let* (input, grid_y) := short input in
  let* (input, grid_width) := word input in
  let* (input, grid_height) := word input in
  let* (input, _) := take 84 input in
  (* assert_eq!(input.len(), 0), header.rs:79 *)
  if negb (length input =? 0)%nat then Panic PAssert else
  Ok (rest,
      {| h_file_size := file_size; h_frames := frames; h_width := width;
         h_height := height; h_color_depth := color_depth; h_flags := flags;
         h_speed := speed; h_transparent_index := transparent_index;
         h_color_count := color_count; h_pixel_width := pixel_width;
         h_pixel_height := pixel_height; h_grid_x := grid_x; h_grid_y := grid_y;
         h_grid_width := grid_width; h_grid_height := grid_height |}).
