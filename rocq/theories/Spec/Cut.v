(** What lies at a pixel; pictures in pieces. *)
From Verif.Model Require Import Loader.
From Verif.Spec Require Import Bytes ImageSpec BlendSpec RenderSpec Made Convert Trimmed.

(** What the drawn cels show at [(x, y)], from bottom to top, with the modes and
    opacities of their layers. *)
Inductive lying (inflate : inflater) (s : ase_file) (sel : layer_selection) (x y : Z)
    : list frame_cel -> list (px * blend_mode * Z) -> Prop :=
| lying_nil : lying inflate s sel x y [] []
| lying_skip cel cels ts : drawn s sel cel = None \/ covers cel x y = false ->
    lying inflate s sel x y cels ts -> lying inflate s sel x y (cel :: cels) ts
| lying_show cel cels l p ts : drawn s sel cel = Some l -> shows inflate s cel x y p ->
    lying inflate s sel x y cels ts -> lying inflate s sel x y (cel :: cels) ((p, ly_blend_mode l, ly_opacity l) :: ts).

(** All drawn cels have pictures and modes. *)
Definition ready (inflate : inflater) (s : ase_file) (sel : layer_selection) (cels : list frame_cel) : Prop :=
  forall cel l, In cel cels -> drawn s sel cel = Some l -> has_view inflate s cel /\ known_mode (ly_blend_mode l).

(** Both cels are drawn with the same mode and opacity, or neither is drawn. *)
Definition drawn_as (s s' : ase_file) (sel sel' : layer_selection) (cel cel' : frame_cel) : Prop :=
  match drawn s sel cel, drawn s' sel' cel' with
  | Some l, Some l' => ly_blend_mode l' = ly_blend_mode l /\ ly_opacity l' = ly_opacity l
  | None, None => True
  | _, _ => False
  end.

(** On the canvas, where the cel shows a pixel, exactly one of the pieces lies
    and shows it; elsewhere none lies. *)
Definition pieces (inflate : inflater) (s s' : ase_file) (sel sel' : layer_selection) (cel : frame_cel) (cels : list frame_cel) : Prop :=
  cels <> [] /\ has_view inflate s cel /\
  Forall (fun piece => drawn_as s s' sel sel' cel piece /\ has_view inflate s' piece) cels /\
  forall x y, on_canvas s x y ->
    (covers cel x y = false -> Forall (fun piece => covers piece x y = false) cels) /\
    (forall p, shows inflate s cel x y p -> exists before piece after, cels = before ++ piece :: after /\
       shows inflate s' piece x y p /\ Forall (fun other => covers other x y = false) (before ++ after)).

Inductive cut_cels (inflate : inflater) (s s' : ase_file) (sel sel' : layer_selection) : list frame_cel -> list frame_cel -> Prop :=
| cut_nil : cut_cels inflate s s' sel sel' [] []
| cut_cons cel part cels cels' : pieces inflate s s' sel sel' cel part ->
    cut_cels inflate s s' sel sel' cels cels' -> cut_cels inflate s s' sel sel' (cel :: cels) (part ++ cels').
Definition cut_up (inflate : inflater) (s s' : ase_file) (sel sel' : layer_selection) : Prop :=
  canvas s' = canvas s /\
  Forall2 (fun f f' => cut_cels inflate s s' sel sel' (sf_cels f) (sf_cels f')) (af_frames s) (af_frames s').
