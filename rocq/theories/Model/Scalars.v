(** Model of src/binary/scalars.rs. *)
From Verif.Model Require Export Base Nom Utf8.

(** scalars.rs:29-33 *)
Record point := { pt_x : Z; pt_y : Z }.
(** scalars.rs:35-39 *)
Record size := { sz_width : Z; sz_height : Z }.
(** scalars.rs:41-45 *)
Record rect := { rc_point : point; rc_size : size }.
(** scalars.rs:47-48: [Fixed(pub u16, pub u16)], built as [Fixed(high, low)]. *)
Record fixedp := { fx_0 : Z; fx_1 : Z }.
(** scalars.rs:50-55 *)
Record rgb := { rgb_red : Z; rgb_green : Z; rgb_blue : Z }.
(** scalars.rs:57-63 *)
Record color := { red : Z; green : Z; blue : Z; alpha : Z }.
(** [Color::default()], derived, scalars.rs:57. *)
Definition color_default : color := {| red := 0; green := 0; blue := 0; alpha := 0 |}.

(** scalars.rs:65-68 *)
Definition byte : parser Z := le_uint 1.
(** scalars.rs:70-73 *)
Definition word : parser Z := le_uint 2.
(** scalars.rs:75-78 *)
Definition short : parser Z := le_int 2.
(** scalars.rs:80-83 *)
Definition dword : parser Z := le_uint 4.
(** scalars.rs:85-88 *)
Definition long : parser Z := le_int 4.

(** scalars.rs:90-94 *)
Definition parse_point : parser point := fun input =>
  let* (input, x) := long input in
  let* (input, y) := long input in
  Ok (input, {| pt_x := x; pt_y := y |}).

(** scalars.rs:96-100 *)
Definition parse_size : parser size := fun input =>
  let* (input, width) := long input in
  let* (input, height) := long input in
  Ok (input, {| sz_width := width; sz_height := height |}).

(** scalars.rs:102-106 *)
Definition parse_rect : parser rect := fun input =>
  let* (input, p) := parse_point input in
  let* (input, s) := parse_size input in
  Ok (input, {| rc_point := p; rc_size := s |}).

(** scalars.rs:108-119 *)
Definition dword_size (f : Z -> parse_error) : parser Z := fun input =>
  let* (input, size) := dword input in
  if 4 <=? size then Ok (input, size) else failure (f size).

(** scalars.rs:121-127.  [u32::try_into::<usize>] fails exactly when the value
    does not fit the pointer width. *)
Definition parse_dword_as_usize (c : cfg) : parser Z := fun input =>
  let* (input, size) := dword input in
  if size <? 2 ^ usize_bits c then Ok (input, size) else failure (EDwordToUsize size).

(** scalars.rs:129-133 *)
Definition parse_dword_as_u8 (e : parse_error) : parser Z := fun input =>
  let* (input, size) := dword input in
  if size <? 256 then Ok (input, size) else failure e.

(** scalars.rs:135-137: [map_res(flat_map(word, take), str::from_utf8)]; a
    UTF-8 error is a recoverable [Err::Error] (errors.rs:50-54). *)
Definition parse_string : parser bytes := fun input =>
  let* (rest, s) := flat_map_p word take input in
  match from_utf8 s with
  | None => Ok (rest, s)
  | Some (valid_up_to, error_len) => Err (NError (EUtf8 valid_up_to error_len))
  end.

(** scalars.rs:139-141 *)
Definition parse_uuid : parser Z := le_uint 16.

(** scalars.rs:143-147 *)
Definition fixed : parser fixedp := fun input =>
  let* (input, low) := le_uint 2 input in
  let* (input, high) := le_uint 2 input in
  Ok (input, {| fx_0 := high; fx_1 := low |}).

(** scalars.rs:149-163 *)
Definition parse_color : parser color := fun input =>
  let* (input, r) := byte input in
  let* (input, g) := byte input in
  let* (input, b) := byte input in
  let* (input, a) := byte input in
  Ok (input, {| red := r; green := g; blue := b; alpha := a |}).

(** scalars.rs:165-170 *)
Definition parse_rgb : parser rgb := fun input =>
  let* (input, r) := byte input in
  let* (input, g) := byte input in
  let* (input, b) := byte input in
  Ok (input, {| rgb_red := r; rgb_green := g; rgb_blue := b |}).
