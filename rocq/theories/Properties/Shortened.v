(** Files that end after some of their frames (C131). *)
From Verif.Model Require Import Loader.
From Verif.Spec Require Import Bytes FileSpec Edits Shortened.
From Verif.Proofs Require Import ShortenedProps.
From Verif.Tests Require Import Configs Build.

(** ** C131 *)
(** [t] holds frames without layers and palettes; [i] loads if no link of its frames
    goes there, and fails with this error otherwise. *)
Theorem C131_outcome : forall c i t raw raw' s', cfg_ok c -> is_bytes (i ++ t) -> addressable c (i ++ t) ->
  parse_raw_file c i = Ok raw -> parse_raw_file c (i ++ t) = Ok raw' -> continued raw raw' -> load c (i ++ t) = Ok s' ->
  (self_contained (length (rw_frames raw)) (f_frames (af_file s')) -> exists s, load c i = Ok s) /\
  (~ self_contained (length (rw_frames raw)) (f_frames (af_file s')) -> exists k l, load c i = Err (LInvalidLinkedCel k l)).
Proof. exact cut_outcome. Qed.
Print Assumptions C131_outcome.

(** Nothing else is lost. *)
Theorem C131_frames : forall c i t raw raw' s', cfg_ok c -> is_bytes (i ++ t) -> addressable c (i ++ t) ->
  parse_raw_file c i = Ok raw -> parse_raw_file c (i ++ t) = Ok raw' -> continued raw raw' -> load c (i ++ t) = Ok s' ->
  forall s, load c i = Ok s ->
  api_size s = api_size s' /\ api_layers s = api_layers s' /\ zlen (api_frames s) = Z.of_nat (length (rw_frames raw)) /\
  (exists l, api_frames s' = api_frames s ++ l) /\ (exists l, api_tags s' = api_tags s ++ l) /\
  (exists l, api_slices s' = api_slices s ++ l) /\
  forall inflate,
    (forall j target, 0 <= j < api_image_count s -> load_image c inflate s j target = load_image c inflate s' j target) /\
    (forall k target sel, 0 <= k < zlen (api_frames s) ->
       render_frame c inflate s k target sel = render_frame c inflate s' k target sel).
Proof. exact cut_frames. Qed.
Print Assumptions C131_frames.

(** Three frames; the first has an image, the second links to frame [p], the third has
    another image. *)
Definition two_of (p : Z) : bytes :=
  hdr 3 32 1 1 ++ frm [layer_ch 1 0 0 255 [97]; raw_cel_ch 0 0 0 255 1 1 [1; 2; 3; 255]] ++ frm [linked_cel_ch 0 0 0 p].
Definition third : bytes := frm [raw_cel_ch 0 0 0 255 1 1 [7; 8; 9; 255]].
Definition no_inflate : inflater := fun _ _ => (ZError, []).
Example C131_back : exists raw raw' s s', parse_raw_file dbg64 (two_of 0) = Ok raw /\ parse_raw_file dbg64 (two_of 0 ++ third) = Ok raw' /\
  continued raw raw' /\ load dbg64 (two_of 0 ++ third) = Ok s' /\ self_contained (length (rw_frames raw)) (f_frames (af_file s')) /\
  load dbg64 (two_of 0) = Ok s /\ zlen (api_frames s) = 2 /\
  render_frame dbg64 no_inflate s 1 [0; 0; 0; 0] SelAll = Ok [1; 2; 3; 255].
Proof.
  do 4 eexists. split; [vm_compute; reflexivity|]. split; [vm_compute; reflexivity|]. split.
  - eexists. split; [reflexivity|]. repeat constructor; discriminate.
  - split; [vm_compute; reflexivity|]. split.
    + intros k fr x p Hk Hfr Hx E. cbn in Hk.
      destruct k as [|[|k]]; [| |lia]; injection Hfr as <-; destruct Hx as [[= <-]|[]]; cbn in E; [discriminate|]. injection E as <-. cbn. lia.
    + split; [vm_compute; reflexivity|]. split; vm_compute; reflexivity.
Qed.
Example C131_forward : exists raw s', parse_raw_file dbg64 (two_of 2) = Ok raw /\ load dbg64 (two_of 2 ++ third) = Ok s' /\
  ~ self_contained (length (rw_frames raw)) (f_frames (af_file s')) /\
  render_frame dbg64 no_inflate s' 1 [0; 0; 0; 0] SelAll = Ok [7; 8; 9; 255] /\
  load dbg64 (two_of 2) = Err (LInvalidLinkedCel 1 0).
Proof.
  do 2 eexists. split; [vm_compute; reflexivity|]. split; [vm_compute; reflexivity|]. split.
  - intro H. specialize (H 1%nat _ _ 2 ltac:(cbn; lia) eq_refl (or_introl eq_refl) eq_refl). cbn in H. lia.
  - split; vm_compute; reflexivity.
Qed.
