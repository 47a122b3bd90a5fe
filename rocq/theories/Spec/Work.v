(** Counting what rendering does. *)
From Verif.Model Require Import Work.
From Verif.Spec Require Import Bytes ImageSpec BlendSpec RenderSpec Made.

Definition how_many (p : event -> bool) (t : list event) : Z := zlen (filter p t).
Definition rounds : list event -> Z := how_many (fun e => match e with Round => true | _ => false end).
Definition blends : list event -> Z := how_many (fun e => match e with Blended _ _ => true | _ => false end).
(** Blends at one place *)
Definition blends_at (x y : Z) : list event -> Z :=
  how_many (fun e => match e with Blended x' y' => (x' =? x) && (y' =? y) | _ => false end).
(** The images loaded, in this order *)
Definition images_loaded (t : list event) : list Z :=
  flat_map (fun e => match e with Loads k => [k] | _ => [] end) t.

Definition zsum {A} (v : A -> Z) (l : list A) : Z := fold_right (fun a n => v a + n) 0 l.
Definition area (cel : frame_cel) : Z := fst (fc_size cel) * snd (fc_size cel).
(** The cels of a frame that are drawn, in this order *)
Definition drawn_cels (s : ase_file) (sel : layer_selection) (cels : list frame_cel) : list frame_cel :=
  filter (fun cel => match drawn s sel cel with Some _ => true | None => false end) cels.
Definition inside (s : ase_file) (x y : Z) : bool :=
  (0 <=? x) && (x <? canvas_width s) && (0 <=? y) && (y <? canvas_height s).
(** How many of the cels lie at a place of the canvas *)
Definition covering (s : ase_file) (cels : list frame_cel) (x y : Z) : Z :=
  if inside s x y then zlen (filter (fun cel => covers cel x y) cels) else 0.
