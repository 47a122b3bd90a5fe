(** The sprite a file stands for, every part of it. *)
From Verif.Model Require Import Loader.
From Verif.Spec Require Import Bytes Format FileSpec LoaderSpec Errors.

Definition layer_of (l : layer_chunk) : layer :=
  {| ly_name := lc_name l; ly_opacity := lc_opacity l; ly_blend_mode := lc_blend_mode l;
     ly_visible := Z.testbit (lc_flags l) 0; ly_layer_type := lc_layer_type l |}.
Definition layers_of (ls : list layer_chunk) : list layer :=
  map layer_of (filter (fun l => match lc_layer_type l with LNormal | LGroup => true | _ => false end) ls).
Definition tag_of (t : tag_) : stag :=
  {| stag_name := tg_name t; stag_range := (tg_from t, tg_to t); stag_direction := tg_animation_direction t;
     stag_repeat := if tg_animation_repeat t =? 0 then None else Some (tg_animation_repeat t) |}.

(** The palette can be built, and every cel belongs to a layer. *)
Definition complete_file (raw : raw_file) (f : file) : Prop :=
  exists pal, palette_of raw = Ok pal /\ f = file_of raw pal /\
    Forall (fun x => cc_layer_index x < layer_count raw) (frame_cels raw).

Definition stands_for (raw : raw_file) (s : ase_file) : Prop :=
  let fs := f_frames (af_file s) in
  complete_file raw (af_file s) /\
  af_layers s = layers_of (f_layers (af_file s)) /\
  af_tags s = map tag_of (f_tags (af_file s)) /\
  af_images s = map snd (image_cels fs) /\
  Forall2 (fun '(k, fr) sf => sf_duration sf = fr_duration fr /\ sf_origin sf = (0, 0) /\
             Forall2 (shows fs k) (filled fr) (sf_cels sf))
          (numbered 0 fs) (af_frames s).

(** What is wrong with the cel [x] of frame [k]: it links to a frame without an
    image on the same layer, or it is a tilemap or of an unknown kind. *)
Definition cel_wrong (fs : list frame) (k : Z) (x : cel_chunk) (e : load_sprite_error) : Prop :=
  match cc_content x with
  | CImage _ => False
  | CLinked p => (forall im, ~ In ((p, cc_layer_index x), im) (image_cels fs)) /\
                 e = LInvalidLinkedCel k (cc_layer_index x)
  | _ => e = LInvalidCel
  end.

(** Somewhere in the file, after frames and chunks that can be read, there are user
    data whose area for properties claims to be smaller than its two size fields. *)
Definition short_area (d : bytes) : Prop :=
  exists flags t co e1 e2 size n r,
    d = le 4 flags ++ e1 ++ e2 ++ le 4 size ++ le 4 n ++ r /\ u32 flags /\ u32 n /\
    opt_l string_l t e1 /\ (is_some t <-> Z.testbit flags 0 = true) /\
    opt_l color_l co e2 /\ (is_some co <-> Z.testbit flags 1 = true) /\
    Z.testbit flags 2 = true /\ 0 <= size < 8.
Definition overruns (c : cfg) (i : bytes) : Prop :=
  exists fs cs d, at_data c i fs cs 0x2020 d /\ short_area d.
(** The first cel that has no layer has the number of the layers as its index. *)
Definition next_layer (c : cfg) (i : bytes) : Prop :=
  exists raw pal before x after,
    raw_file_l (kept_error c) raw i /\ palette_of raw = Ok pal /\
    frame_cels raw = before ++ x :: after /\
    Forall (fun y => cc_layer_index y < layer_count raw) before /\
    cc_layer_index x = layer_count raw.

(** Nothing prevents the file from being loaded. *)
Definition usable (raw : raw_file) : Prop :=
  exists f, complete_file raw f /\
    Forall (fun '(k, x) => forall e, ~ cel_wrong (f_frames f) k x e) (file_cels (f_frames f)).
