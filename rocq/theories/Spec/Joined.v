(** One animation after another. *)
From Verif.Model Require Import Loader.
From Verif.Spec Require Import Bytes.

(** The cels of an animation of [m] frames that begins at frame [n] *)
Definition moved_cel (m n : Z) (x : cel_chunk) : cel_chunk :=
  match cc_content x with
  | CLinked p =>
      {| cc_layer_index := cc_layer_index x; cc_x := cc_x x; cc_y := cc_y x; cc_opacity := cc_opacity x;
         cc_z_index := cc_z_index x; cc_content := CLinked (if p <? m then p + n else p); cc_user_data := cc_user_data x |}
  | _ => x
  end.
Definition moved (m n : Z) (fr : raw_frame) : raw_frame :=
  {| rf_duration := rf_duration fr;
     rf_chunks := flat_map (fun x => match x with ChCel y => [ChCel (moved_cel m n y)] | _ => [] end) (rf_chunks fr) |}.
(** The frames of [raw], then the cels of the frames of [raw2].  The header is
    that of [raw]; its number of frames is not looked at (C06). *)
Definition joined (raw raw2 : raw_file) : raw_file :=
  {| rw_header := rw_header raw;
     rw_frames := rw_frames raw ++ map (moved (zlen (rw_frames raw2)) (zlen (rw_frames raw))) (rw_frames raw2) |}.
