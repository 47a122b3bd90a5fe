(** A frame that repeats another one by links. *)
From Verif.Model Require Import Loader.
From Verif.Spec Require Import Bytes Format LoaderSpec.

(** A cel chunk at the place of [fc], linked to frame [p] *)
Definition link (fc : frame_cel) (p : Z) : bytes :=
  encode_chunk 0x2005 (le 2 (fc_layer_index fc) ++ les 2 (fst (fc_origin fc)) ++ les 2 (snd (fc_origin fc)) ++
    le 1 255 ++ le 2 1 ++ les 2 0 ++ repeat 0 5 ++ le 2 p).
(** The frame in which the file has the image that [fc] shows *)
Definition home (s : ase_file) (fc : frame_cel) (p : Z) : Prop :=
  exists im, nth_error (image_cels (f_frames (af_file s))) (Z.to_nat (fc_image_index fc)) = Some ((p, fc_layer_index fc), im).
Definition links (s : ase_file) (sf : sframe) (es : list bytes) : Prop :=
  Forall2 (fun fc e => exists p, u16 p /\ home s fc p /\ e = link fc p) (sf_cels sf) es.
(** A frame of these chunks, shown for [d] milliseconds *)
Definition hold (d : Z) (es : list bytes) : bytes :=
  le 4 (zlen (concat es) + 16) ++ le 2 0xF1FA ++ le 2 0 ++ le 2 d ++ [0; 0] ++ le 4 (zlen es) ++ concat es.
