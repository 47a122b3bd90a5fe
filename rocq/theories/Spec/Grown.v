(** A frame with new layers and new pictures, written after a file. *)
From Coq Require Import Sorted.
From Verif.Model Require Import Loader.
From Verif.Spec Require Import Bytes Utf8Spec Format LoaderSpec.

Record new_layer := { nl_flags : Z; nl_mode : Z; nl_opacity : Z; nl_name : bytes }.
Definition new_layer_ok (l : new_layer) : Prop :=
  u16 (nl_flags l) /\ u16 (nl_mode l) /\ u8 (nl_opacity l) /\ u16 (zlen (nl_name l)) /\ is_utf8 (nl_name l) /\ is_bytes (nl_name l).
(** A layer chunk of type 0 and child level 0 *)
Definition layer_bytes (l : new_layer) : bytes :=
  encode_chunk 0x2004 (le 2 (nl_flags l) ++ le 2 0 ++ le 2 0 ++ le 2 0 ++ le 2 0 ++ le 2 (nl_mode l) ++ le 1 (nl_opacity l) ++
    [0; 0; 0] ++ le 2 (zlen (nl_name l)) ++ nl_name l).
Definition layer_view (l : new_layer) : layer :=
  {| ly_name := nl_name l; ly_opacity := nl_opacity l; ly_blend_mode := blend_mode_code (nl_mode l);
     ly_visible := Z.testbit (nl_flags l) 0; ly_layer_type := LNormal |}.

Record new_cel := { nc_layer : Z; nc_x : Z; nc_y : Z; nc_image : image }.
Definition new_cel_ok (x : new_cel) : Prop :=
  u16 (nc_layer x) /\ i16 (nc_x x) /\ i16 (nc_y x) /\ u16 (im_width (nc_image x)) /\ u16 (im_height (nc_image x)) /\
  is_bytes (im_data (nc_image x)).
(** A cel chunk of type 2 if the image is compressed, otherwise 0 *)
Definition cel_bytes (x : new_cel) : bytes :=
  encode_chunk 0x2005 (le 2 (nc_layer x) ++ les 2 (nc_x x) ++ les 2 (nc_y x) ++ le 1 255 ++
    le 2 (if im_compressed (nc_image x) then 2 else 0) ++ les 2 0 ++ repeat 0 5 ++
    le 2 (im_width (nc_image x)) ++ le 2 (im_height (nc_image x)) ++ im_data (nc_image x)).
(** As number [j] of the images *)
Definition cel_seen (j : Z) (x : new_cel) : frame_cel :=
  {| fc_origin := (nc_x x, nc_y x); fc_size := (im_width (nc_image x), im_height (nc_image x));
     fc_layer_index := nc_layer x; fc_image_index := j |}.

(** The layers of the cels ascend and are among [n]. *)
Definition ascending (n : Z) (xs : list new_cel) : Prop :=
  StronglySorted Z.lt (map nc_layer xs) /\ Forall (fun x => nc_layer x < n) xs.
(** The chunks of the new frame *)
Definition additions (ls : list new_layer) (xs : list new_cel) : list bytes := map layer_bytes ls ++ map cel_bytes xs.

(** [s'] is [s] with these layers, images and this frame after its own. *)
Definition grown (s s' : ase_file) (d : Z) (ls : list new_layer) (xs : list new_cel) : Prop :=
  f_header (af_file s') = f_header (af_file s) /\ f_palette (af_file s') = f_palette (af_file s) /\
  f_tags (af_file s') = f_tags (af_file s) /\ f_slices (af_file s') = f_slices (af_file s) /\
  f_user_data (af_file s') = f_user_data (af_file s) /\ af_tags s' = af_tags s /\
  af_layers s' = af_layers s ++ map layer_view ls /\
  af_images s' = af_images s ++ map nc_image xs /\
  af_frames s' = af_frames s ++
    [{| sf_duration := d; sf_origin := (0, 0); sf_cels := map (fun '(j, x) => cel_seen j x) (numbered (zlen (af_images s)) xs) |}].
