(** Rendering (Loader.v) once more, with a count of the rounds of all its loops,
    those of decoding the images (ImageWork.v) included.  As there, that the
    outcome is the one of the model proper is proved (Proofs/RenderStepsProps.v). *)
From Verif.Model Require Export ImageWork.

(** mod.rs:316-348: the two nested loops; a single pixel (mod.rs:318-346) has no
    loop *)
Definition k_render_pixels (c : cfg) (width height : Z) (cel : frame_cel) (cel_target : bytes)
    (f : blend_fn) (opacity : Z) (target : bytes) : kout (load_image_error * bytes) bytes :=
  k_fold (fun target y =>
    k_fold (fun target x =>
      plain (render_pixel c width height cel cel_target f opacity target y x))
      (zrange (fst (fc_size cel))) target)
    (zrange (snd (fc_size cel))) target.
(** [Result::unwrap] *)
Definition k_unwrap {E F A} (m : kout F A) : kout E A := (fst m, unwrap (snd m)).
(** mod.rs:303-348 *)
Definition k_render_cel (c : cfg) (inflate : inflater) (s : ase_file) (sel : layer_selection)
    (target : bytes) (cel : frame_cel) : kout (load_image_error * bytes) bytes :=
  match nth_error (af_layers s) (Z.to_nat (fc_layer_index cel)) with
  | None => plain (Ok target)
  | Some l =>
    if layer_type_eqb (ly_layer_type l) LGroup || negb (is_selected sel (fc_layer_index cel) l)
    then plain (Ok target)
    else
      let% n := plain (usizec c (fst (fc_size cel) * snd (fc_size cel))) in
      let% n := plain (usizec c (n * 4)) in
      let% cel_target := plain (vec_zeroed c n) in
      let% cel_target := k_unwrap (k_load_image c inflate s (fc_image_index cel) cel_target) in
      let% f := plain (lift (blend_mode_to_blend_fn c (ly_blend_mode l))) in
      k_render_pixels c (h_width (f_header (af_file s))) (h_height (f_header (af_file s)))
                    cel cel_target f (ly_opacity l) target
  end.
(** mod.rs:287-351 *)
Definition k_render_frame (c : cfg) (inflate : inflater) (s : ase_file) (frame_index : Z)
    (target : bytes) (sel : layer_selection) : kout (load_image_error * bytes) bytes :=
  let% n := plain (usizec c (h_width (f_header (af_file s)) * h_height (f_header (af_file s)))) in
  let% target_size := plain (usizec c (n * 4)) in
  if zlen target <? target_size then plain (Err (TargetBufferTooSmall, target)) else
  let% fr := plain (get_index (af_frames s) frame_index) in
  k_fold (k_render_cel c inflate s sel) (sf_cels fr) target.
