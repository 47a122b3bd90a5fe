(** One sprite above another. *)
From Verif.Model Require Import Loader.
From Verif.Spec Require Import Bytes FileSpec RenderSpec.

(** The layers and cels of a frame, above [n] other layers *)
Definition lifted_cel (n : Z) (x : cel_chunk) : cel_chunk :=
  {| cc_layer_index := cc_layer_index x + n; cc_x := cc_x x; cc_y := cc_y x; cc_opacity := cc_opacity x;
     cc_z_index := cc_z_index x; cc_content := cc_content x; cc_user_data := cc_user_data x |}.
Definition lifted (n : Z) (cs : list chunk) : list chunk :=
  flat_map (fun x => match x with ChLayer l => [ChLayer l] | ChCel y => [ChCel (lifted_cel n y)] | _ => [] end) cs.
Fixpoint overlaid_frames (n : Z) (fs gs : list raw_frame) : list raw_frame :=
  match fs, gs with
  | fr :: fs', gr :: gs' => {| rf_duration := rf_duration fr; rf_chunks := rf_chunks fr ++ lifted n (rf_chunks gr) |} :: overlaid_frames n fs' gs'
  | _, _ => fs
  end.
(** To every frame of [raw] are added the layers and cels of the frame of [raw2]. *)
Definition overlaid (raw raw2 : raw_file) : raw_file :=
  {| rw_header := rw_header raw; rw_frames := overlaid_frames (layer_count raw) (rw_frames raw) (rw_frames raw2) |}.
(** The first frame has all layers. *)
Definition layers_first (raw : raw_file) : Prop :=
  forall k fr l, nth_error (rw_frames raw) (S k) = Some fr -> ~ In (ChLayer l) (rf_chunks fr).

(** [sel'] chooses what [sel] and [sel2] choose. *)
Definition chooses_both (a b : list layer) (sel sel2 sel' : layer_selection) : Prop :=
  (forall j l, nth_error a j = Some l -> chosen sel' (Z.of_nat j) l = chosen sel (Z.of_nat j) l) /\
  (forall j l, nth_error b j = Some l -> chosen sel' (Z.of_nat (length a + j)) l = chosen sel2 (Z.of_nat j) l).
