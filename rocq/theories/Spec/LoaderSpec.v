(** What [AsepriteFile::load] has to compute from a parsed file. *)
From Verif.Model Require Import Loader.

Fixpoint numbered {A} (k : Z) (l : list A) : list (Z * A) :=
  match l with
  | [] => []
  | a :: l' => (k, a) :: numbered (k + 1) l'
  end.

(** The cels present in a frame, by layer. *)
Definition filled (fr : frame) : list cel_chunk :=
  flat_map (fun o => match o with Some x => [x] | None => [] end) (fr_cels fr).

(** All cels with the number of their frame, in frame then layer order. *)
Definition file_cels (fs : list frame) : list (Z * cel_chunk) :=
  flat_map (fun '(k, fr) => map (fun x => (k, x)) (filled fr)) (numbered 0 fs).

(** The image cels among them: (frame, layer) and the image. *)
Definition image_cels (fs : list frame) : list ((Z * Z) * image) :=
  flat_map (fun '(k, x) => match cc_content x with
                           | CImage im => [((k, cc_layer_index x), im)]
                           | _ => []
                           end) (file_cels fs).

(** Frame first, then layer *)
Definition before (a b : Z * Z) : Prop := fst a < fst b \/ (fst a = fst b /\ snd a < snd b).

(** The frame whose image a cel of frame [k] shows. *)
Definition source_frame (k : Z) (x : cel_chunk) : option Z :=
  match cc_content x with
  | CImage _ => Some k
  | CLinked p => Some p
  | _ => None
  end.

(** [fc] is the high level view of the cel [x] of frame [k]. *)
Definition shows (fs : list frame) (k : Z) (x : cel_chunk) (fc : frame_cel) : Prop :=
  fc_origin fc = (cc_x x, cc_y x) /\ fc_layer_index fc = cc_layer_index x /\
  0 <= fc_image_index fc /\
  exists p im, source_frame k x = Some p /\
    nth_error (image_cels fs) (Z.to_nat (fc_image_index fc)) = Some ((p, cc_layer_index x), im) /\
    fc_size fc = (im_width im, im_height im).

(** Why a cel cannot be loaded. *)
Definition cel_problem (fs : list frame) (kx : Z * cel_chunk) : list load_sprite_error :=
  let '(k, x) := kx in
  match cc_content x with
  | CImage _ => []
  | CLinked p =>
      if existsb (fun q => (fst (fst q) =? p) && (snd (fst q) =? cc_layer_index x)) (image_cels fs)
      then [] else [LInvalidLinkedCel k (cc_layer_index x)]
  | _ => [LInvalidCel]
  end.
Definition problems (fs : list frame) : list load_sprite_error :=
  flat_map (cel_problem fs) (file_cels fs).
