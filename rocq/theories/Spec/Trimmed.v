(** Pictures without what does not show. *)
From Verif.Model Require Import Loader.
From Verif.Spec Require Import Bytes ImageSpec BlendSpec RenderSpec Made Convert.

(** Pixels that look the same: equal, or both transparent. *)
Definition same_look (p q : px) : Prop := p = q \/ (pa p = 0 /\ pa q = 0).
(** Two pictures of a canvas *)
Definition same_looks (size : Z * Z) (d d' : bytes) : Prop :=
  forall x y p q, 0 <= x < fst size -> 0 <= y < snd size ->
    pixel (fst size) d x y = Some p -> pixel (fst size) d' x y = Some q -> same_look p q.

(** At [(x, y)], the picture of the cel is [p]. *)
Definition shows (inflate : inflater) (s : ase_file) (cel : frame_cel) (x y : Z) (p : px) : Prop :=
  covers cel x y = true /\ exists view, cel_view inflate s cel view /\
    pixel (fst (fc_size cel)) view (x - fst (fc_origin cel)) (y - snd (fc_origin cel)) = Some p.
Definition has_view (inflate : inflater) (s : ase_file) (cel : frame_cel) : Prop := exists view, cel_view inflate s cel view.
Definition on_canvas (s : ase_file) (x y : Z) : Prop := 0 <= x < canvas_width s /\ 0 <= y < canvas_height s.

(** On the canvas, the second cel shows what the first shows, or is missing
    transparent pixels. *)
Definition trimmed_cel (inflate : inflater) (s s' : ase_file) (cel cel' : frame_cel) : Prop :=
  fc_layer_index cel' = fc_layer_index cel /\ has_view inflate s cel /\ has_view inflate s' cel' /\
  forall x y, on_canvas s x y ->
    (forall p, shows inflate s' cel' x y p -> shows inflate s cel x y p) /\
    (forall p, shows inflate s cel x y p -> shows inflate s' cel' x y p \/ pa p = 0).
(** On the canvas, the cel shows nothing. *)
Definition blank_cel (inflate : inflater) (s : ase_file) (cel : frame_cel) : Prop :=
  has_view inflate s cel /\ forall x y p, on_canvas s x y -> shows inflate s cel x y p -> pa p = 0.

Inductive trimmed_cels (inflate : inflater) (s s' : ase_file) : list frame_cel -> list frame_cel -> Prop :=
| trimmed_nil : trimmed_cels inflate s s' [] []
| trimmed_cons cel cel' cels cels' : trimmed_cel inflate s s' cel cel' ->
    trimmed_cels inflate s s' cels cels' -> trimmed_cels inflate s s' (cel :: cels) (cel' :: cels')
| trimmed_drop cel cels cels' : blank_cel inflate s cel ->
    trimmed_cels inflate s s' cels cels' -> trimmed_cels inflate s s' (cel :: cels) cels'.

(** The second sprite has trimmed pictures, and lacks some blank ones. *)
Definition trimmed (inflate : inflater) (s s' : ase_file) : Prop :=
  canvas s' = canvas s /\ af_layers s' = af_layers s /\
  Forall2 (fun f f' => trimmed_cels inflate s s' (sf_cels f) (sf_cels f')) (af_frames s) (af_frames s').
