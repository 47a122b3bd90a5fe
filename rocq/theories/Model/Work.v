(** Rendering (Loader.v) once more, line by line, with a record of what is done:
    rounds of the inner loop over pixels, calls of the blend function, and calls
    of [load_image].  As in Steps.v, that the outcome is the one of the model
    proper is proved (Proofs/WorkProps.v); only where events are recorded has to
    be read. *)
From Verif.Model Require Export Loader.

Inductive event :=
| Round                  (** mod.rs:317: one round of the inner loop *)
| Blended (x y : Z)      (** mod.rs:341: the blend function is called for this place of the target *)
| Loads (image : Z).     (** mod.rs:311: [load_image] is called for this image *)

(** What was done, and the outcome. *)
Definition wout A := (list event * out (load_image_error * bytes) A)%type.
Definition quiet {A} (m : out (load_image_error * bytes) A) : wout A := ([], m).
Definition note {A} (e : event) (m : wout A) : wout A := (e :: fst m, snd m).
Definition wbind {A B} (m : wout A) (k : A -> wout B) : wout B :=
  match snd m with
  | Ok a => let r := k a in (fst m ++ fst r, snd r)
  | Err e => (fst m, Err e)
  | Panic p => (fst m, Panic p)
  end.
Notation "'let^' p ':=' m 'in' k" :=
  (wbind m (fun p => k)) (at level 61, p pattern, m at next level, right associativity).

Fixpoint w_fold {A B} (f : A -> B -> wout A) (l : list B) (a : A) : wout A :=
  match l with
  | [] => quiet (Ok a)
  | b :: l' => let^ a' := f a b in w_fold f l' a'
  end.

(** mod.rs:318-346, [render_pixel] *)
Definition w_render_pixel (c : cfg) (width height : Z) (cel : frame_cel) (cel_target : bytes)
    (f : blend_fn) (opacity : Z) (target : bytes) (y x : Z) : wout bytes :=
  match checked_add_signed16 x (fst (fc_origin cel)) with
  | None => quiet (Ok target)
  | Some target_x =>
  if width <=? target_x then quiet (Ok target) else
  match checked_add_signed16 y (snd (fc_origin cel)) with
  | None => quiet (Ok target)
  | Some target_y =>
  if height <=? target_y then quiet (Ok target) else
  let^ m := quiet (usizec c (target_y * width)) in
  let^ target_index := quiet (usizec c (m + target_x)) in
  let^ m := quiet (usizec c (y * fst (fc_size cel))) in
  let^ cel_index := quiet (usizec c (m + x)) in
  let^ ca := quiet (usizec c (cel_index * 4)) in
  let^ cb := quiet (usizec c (ca + 4)) in
  let^ cel_pixel := quiet (slice_range cel_target ca cb) in
  let^ ta := quiet (usizec c (target_index * 4)) in
  let^ tb := quiet (usizec c (ta + 4)) in
  let^ target_pixel := quiet (slice_range target ta tb) in
  let^ back := quiet (px_from_u8 c target_pixel) in
  let^ front := quiet (px_from_u8 c cel_pixel) in
  let^ o := note (Blended target_x target_y) (quiet (lift (f back front opacity))) in
  quiet (set4 target ta (pr o) (pg o) (pb o) (pa o))
  end end.

(** mod.rs:316-348, [render_pixels] *)
Definition w_render_pixels (c : cfg) (width height : Z) (cel : frame_cel) (cel_target : bytes)
    (f : blend_fn) (opacity : Z) (target : bytes) : wout bytes :=
  w_fold (fun target y =>
    w_fold (fun target x =>
      note Round (w_render_pixel c width height cel cel_target f opacity target y x))
      (zrange (fst (fc_size cel))) target)
    (zrange (snd (fc_size cel))) target.

(** mod.rs:303-348, [render_cel] *)
Definition w_render_cel (c : cfg) (inflate : inflater) (s : ase_file) (sel : layer_selection)
    (target : bytes) (cel : frame_cel) : wout bytes :=
  match nth_error (af_layers s) (Z.to_nat (fc_layer_index cel)) with
  | None => quiet (Ok target)
  | Some l =>
    if layer_type_eqb (ly_layer_type l) LGroup || negb (is_selected sel (fc_layer_index cel) l)
    then quiet (Ok target)
    else
      let^ n := quiet (usizec c (fst (fc_size cel) * snd (fc_size cel))) in
      let^ n := quiet (usizec c (n * 4)) in
      let^ cel_target := quiet (vec_zeroed c n) in
      let^ cel_target := note (Loads (fc_image_index cel))
        (quiet (unwrap (load_image c inflate s (fc_image_index cel) cel_target))) in
      let^ f := quiet (lift (blend_mode_to_blend_fn c (ly_blend_mode l))) in
      w_render_pixels c (h_width (f_header (af_file s))) (h_height (f_header (af_file s)))
                    cel cel_target f (ly_opacity l) target
  end.

(** mod.rs:287-351, [render_frame] *)
Definition w_render_frame (c : cfg) (inflate : inflater) (s : ase_file) (frame_index : Z)
    (target : bytes) (sel : layer_selection) : wout bytes :=
  let^ n := quiet (usizec c (h_width (f_header (af_file s)) * h_height (f_header (af_file s)))) in
  let^ target_size := quiet (usizec c (n * 4)) in
  if zlen target <? target_size then quiet (Err (TargetBufferTooSmall, target)) else
  let^ fr := quiet (get_index (af_frames s) frame_index) in
  w_fold (w_render_cel c inflate s sel) (sf_cels fr) target.
