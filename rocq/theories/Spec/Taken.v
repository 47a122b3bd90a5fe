(** A sprite made of the frames of another one. *)
From Verif.Model Require Import Loader.
From Verif.Spec Require Import Bytes FileSpec LoaderSpec Edits.

(** In a file with frames [fs], the cel [x] shows the image [im], its own or that
    of another frame. *)
Definition picture (fs : list frame) (x : cel_chunk) (im : image) : Prop :=
  cc_content x = CImage im \/
  exists p, 0 <= p /\ cc_content x = CLinked p /\ image_at fs p (cc_layer_index x) = Some im.
Definition alike (fs fs' : list frame) (x y : cel_chunk) : Prop :=
  cc_layer_index y = cc_layer_index x /\ cc_x y = cc_x x /\ cc_y y = cc_y x /\
  exists im, picture fs x im /\ picture fs' y im.
(** Frame number [j] of [fs'] is frame number [src j] of [fs]. *)
Definition taken (src : nat -> nat) (fs fs' : list frame) : Prop :=
  forall j fr', nth_error fs' j = Some fr' -> exists fr, nth_error fs (src j) = Some fr /\
    fr_duration fr' = fr_duration fr /\
    Forall2 (fun o o' => match o, o' with
                         | Some x, Some y => alike fs fs' x y
                         | None, None => True
                         | _, _ => False
                         end) (fr_cels fr) (fr_cels fr').

(** ** Backwards *)
(** Links of an animation of [n] frames when its frames are reversed *)
Definition turned_cel (n : Z) (x : cel_chunk) : cel_chunk :=
  match cc_content x with
  | CLinked p =>
      {| cc_layer_index := cc_layer_index x; cc_x := cc_x x; cc_y := cc_y x; cc_opacity := cc_opacity x;
         cc_z_index := cc_z_index x; cc_content := CLinked (if p <? n then n - 1 - p else p); cc_user_data := cc_user_data x |}
  | _ => x
  end.
Definition turned (n : Z) (x : chunk) : chunk :=
  match x with ChCel y => ChCel (turned_cel n y) | _ => x end.
Definition backwards (raw : raw_file) : raw_file :=
  {| rw_header := rw_header raw;
     rw_frames := rev (map (fun fr => {| rf_duration := rf_duration fr;
                                         rf_chunks := map (turned (zlen (rw_frames raw))) (rf_chunks fr) |}) (rw_frames raw)) |}.
(** All layers, and in indexed sprites all palettes, are in one frame. *)
Definition gathered (raw : raw_file) : Prop :=
  exists a fr b, rw_frames raw = a ++ [fr] ++ b /\
    Forall (fun fr => Forall (fun x => role_of x <> Layers /\
              (h_color_depth (rw_header raw) = Indexed -> role_of x <> Colours)) (rf_chunks fr)) (a ++ b).
