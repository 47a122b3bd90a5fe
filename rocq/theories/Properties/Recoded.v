(** The same colours in other palette chunks (C130). *)
From Verif.Model Require Import Loader.
From Verif.Spec Require Import Bytes Format Encode FileSpec Published Edits Recoded.
From Verif.Proofs Require Import RecodedProps.
From Verif.Tests Require Import Configs Build.

(** ** C130 *)
(** Palette chunks may be exchanged for others that give the same palette, ... *)
Theorem C130_recoded : forall c i i' raw raw', cfg_ok c -> is_bytes i -> addressable c i -> is_bytes i' -> addressable c i' ->
  parse_raw_file c i = Ok raw -> parse_raw_file c i' = Ok raw' ->
  same_picture_header (rw_header raw) (rw_header raw') -> frames_by (Forall2 recoded) raw raw' -> palette_of raw = palette_of raw' ->
  same_outcome c (load c i) (load c i').
Proof. exact recoded_load. Qed.
Print Assumptions C130_recoded.

(** ... old palette chunks beside new ones for any others, ... *)
Theorem C130_ignored : forall c i i' raw raw', cfg_ok c -> is_bytes i -> addressable c i -> is_bytes i' -> addressable c i' ->
  parse_raw_file c i = Ok raw -> parse_raw_file c i' = Ok raw' ->
  same_picture_header (rw_header raw) (rw_header raw') -> frames_by (Forall2 old_recoded) raw raw' -> new_palettes (rw_frames raw) <> [] ->
  same_outcome c (load c i) (load c i').
Proof. exact old_ignored. Qed.
Print Assumptions C130_ignored.

(** ... and all of them for one new chunk with all colours, or one old chunk if the
    colours are opaque.  The file can be written. *)
Theorem C130_written : forall c i s raw pal, cfg_ok c -> is_bytes i -> addressable c i -> load c i = Ok s ->
  parse_raw_file c i = Ok raw -> f_palette (af_file s) = Some pal ->
  forall p, expresses (h_transparent_index (rw_header raw)) pal p -> no_map_error raw ->
  Forall (fun fr => u32 (zlen (enc_raw_frame fr))) (rw_frames (recode p raw)) -> addressable c (enc_file (recode p raw)) ->
  exists s', load c (enc_file (recode p raw)) = Ok s' /\ same_sprite c s s'.
Proof. exact recode_written. Qed.
Print Assumptions C130_written.

(** Files without new palette chunks have no other colours. *)
Theorem C130_old_colours : forall c i s raw pal, cfg_ok c -> is_bytes i -> addressable c i -> load c i = Ok s ->
  parse_raw_file c i = Ok raw -> f_palette (af_file s) = Some pal ->
  new_palettes (rw_frames raw) = [] -> all_paintable (h_transparent_index (rw_header raw)) pal.
Proof. exact old_paintable. Qed.
Print Assumptions C130_old_colours.

(** Two palette chunks, the second one changes a colour of the first, and an old one,
    which is ignored.  Then each of them replaced. *)
Definition mixed : bytes :=
  hdr 1 8 2 2 ++ frm [old_palette_ch 4 [(0, [(9, 9, 9); (8, 8, 8)])];
    palette_ch 3 1 3 [(10, 20, 30, 255); (40, 50, 60, 255); (70, 80, 90, 255)]; text_ch [104; 105];
    palette_ch 1 2 2 [(1, 2, 3, 255)]; layer_ch 1 0 0 255 [97]; raw_cel_ch 0 0 0 255 2 2 [0; 1; 2; 3]].
Definition no_inflate : inflater := fun _ _ => (ZError, []).
Definition shown (i : bytes) : option (buf_out * option (option bytes)) :=
  match load rel32 i with
  | Ok s => Some (render_frame rel32 no_inflate s 0 (repeat 0 16) SelAll, option_map ud_text (f_user_data (af_file s)))
  | _ => None
  end.
Definition mixed_shown : option (buf_out * option (option bytes)) :=
  Some (Ok [0; 0; 0; 0; 10; 20; 30; 255; 1; 2; 3; 255; 70; 80; 90; 255], Some (Some [104; 105])).
Example C130_example : exists s raw pal, load rel32 mixed = Ok s /\ parse_raw_file rel32 mixed = Ok raw /\ f_palette (af_file s) = Some pal /\
  all_paintable (h_transparent_index (rw_header raw)) pal /\ zlen (packets (h_transparent_index (rw_header raw)) 0 0 pal) = 4 /\
  shown mixed = mixed_shown /\
  shown (enc_file (recode (ChPalette (whole_palette pal)) raw)) = mixed_shown /\
  shown (enc_file (recode (ChPalette0004 (old_palette (h_transparent_index (rw_header raw)) pal)) raw)) = mixed_shown /\
  shown (enc_file (recode (ChPalette0011 (old_palette (h_transparent_index (rw_header raw)) pal)) raw)) = mixed_shown.
Proof.
  do 3 eexists. split; [vm_compute; reflexivity|]. split; [vm_compute; reflexivity|]. split; [reflexivity|]. split.
  - intros k x Hx. do 4 (destruct k as [|k]; [injection Hx as <-; unfold paintable; cbn; tauto|]).
    right. right. cbn [nth_error] in Hx. apply nth_error_In in Hx.
    match type of Hx with In _ ?l =>
      assert (F : Forall (fun x => x = {| red := 0; green := 0; blue := 0; alpha := 0 |}) l)
        by (repeat (apply Forall_cons; [reflexivity|]); apply Forall_nil) end.
    exact (proj1 (Forall_forall _ _) F x Hx).
  - split; [vm_compute; reflexivity|]. do 3 (split; [vm_compute; reflexivity|]). vm_compute; reflexivity.
Qed.

(** A translucent colour has no place in an old chunk. *)
Definition glass : bytes :=
  hdr 1 8 1 1 ++ frm [palette_ch 2 0 1 [(0, 0, 0, 255); (10, 20, 30, 128)]; layer_ch 1 0 0 255 [97]; raw_cel_ch 0 0 0 255 1 1 [1]].
Example C130_glass : exists s pal, load rel32 glass = Ok s /\ f_palette (af_file s) = Some pal /\ ~ all_paintable 0 pal.
Proof.
  do 2 eexists. split; [vm_compute; reflexivity|]. split; [reflexivity|].
  intro H. destruct (H 1%nat _ eq_refl) as [E|[E|E]]; vm_compute in E; discriminate E.
Qed.
