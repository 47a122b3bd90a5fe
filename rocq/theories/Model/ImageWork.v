(** Decoding an image (Loader.v) once more, line by line, with a count of the
    rounds of the two loops that convert pixels.  As in LoadSteps.v, that the
    outcome is the one of the model proper is proved (Proofs/ImageWorkProps.v).
    What [flate2] does and copies of memory are not counted. *)
From Verif.Model Require Export LoadSteps.

(** mod.rs:459-470 *)
Definition k_grayscale_to_rgba (c : cfg) (source target : bytes)
    : kout (load_image_error * bytes) bytes :=
  let% n := plain (usizec c (zlen source * 2)) in
  if negb (zlen target =? n) then plain (Err (InvalidImageData, target)) else
  k_fold (fun target '(i, ch) =>
    let% v := plain (get_index ch 0) in
    let% w := plain (get_index ch 1) in
    plain (set4 target (i * 4) v v v w)) (enumerate (chunks2 source)) target.
(** mod.rs:472-488 *)
Definition k_indexed_to_rgba (c : cfg) (source : bytes) (pal : palette) (target : bytes)
    : kout (load_image_error * bytes) bytes :=
  let% n := plain (usizec c (zlen source * 4)) in
  if negb (zlen target =? n) then plain (Err (InvalidImageData, target)) else
  k_fold (fun target '(i, px) =>
    let% color := plain (get_index pal px) in
    plain (set4 target (i * 4) (red color) (green color) (blue color) (alpha color)))
    (enumerate source) target.
(** mod.rs:361-395 *)
Definition k_decode_image (c : cfg) (inflate : inflater) (f : file) (im : image) (target : bytes)
    : kout (load_image_error * bytes) bytes :=
  match h_color_depth (f_header f), im_compressed im with
  | Rgba, false =>
      if zlen target =? zlen (im_data im) then plain (Ok (im_data im)) else plain (Panic PCopyLen)
  | Rgba, true => plain (decompress inflate (im_data im) target)
  | Grayscale, false => k_grayscale_to_rgba c (im_data im) target
  | Grayscale, true =>
      let% n := plain (usizec c (im_width im * im_height im)) in
      let% n := plain (usizec c (n * 2)) in
      let% buf := plain (vec_zeroed c n) in
      let% buf := plain (local_buf target (decompress inflate (im_data im) buf)) in
      k_grayscale_to_rgba c buf target
  | Indexed, false =>
      let% pal := plain (need_palette (f_palette f) target) in
      k_indexed_to_rgba c (im_data im) pal target
  | Indexed, true =>
      let% n := plain (usizec c (im_width im * im_height im)) in
      let% buf := plain (vec_zeroed c n) in
      let% buf := plain (local_buf target (decompress inflate (im_data im) buf)) in
      let% pal := plain (need_palette (f_palette f) target) in
      k_indexed_to_rgba c buf pal target
  | DUnknown _, _ => plain (Err (UnsupportedColorDepth, target))
  end.
(** mod.rs:354-397 *)
Definition k_load_image (c : cfg) (inflate : inflater) (s : ase_file) (index : Z) (target : bytes)
    : kout (load_image_error * bytes) bytes :=
  let% im := plain (get_index (af_images s) index) in
  let% n := plain (usizec c (im_width im * im_height im)) in
  let% target_size := plain (usizec c (n * 4)) in
  if zlen target <? target_size then plain (Err (TargetBufferTooSmall, target)) else
  let m := k_decode_image c inflate (af_file s) im (firstn (Z.to_nat target_size) target) in
  (fst m, with_tail (skipn (Z.to_nat target_size) target) (snd m)).
