(** Indexed files with other colours in their palettes (C132). *)
From Verif.Model Require Import Loader.
From Verif.Spec Require Import Bytes BlendSpec ImageSpec RenderSpec FileSpec Published Edits Recoded Stable Faded.
From Verif.Proofs Require Import FadedProps.
From Verif.Tests Require Import Configs Build.

(** ** C132 *)
(** Palette chunks may be exchanged for others that give any palette; nothing else
    changes. *)
Theorem C132_loads : forall c i i' raw raw' s pal', cfg_ok c -> is_bytes i -> addressable c i -> is_bytes i' -> addressable c i' ->
  parse_raw_file c i = Ok raw -> parse_raw_file c i' = Ok raw' ->
  same_picture_header (rw_header raw) (rw_header raw') -> frames_by (Forall2 recoded) raw raw' ->
  load c i = Ok s -> palette_of raw' = Ok pal' ->
  exists s', load c i' = Ok s' /\ same_but_palette s s' /\ f_palette (af_file s') = pal'.
Proof. exact faded_load. Qed.
Print Assumptions C132_loads.

(** The same frames can be drawn (in debug builds if the modes are separable), ... *)
Theorem C132_drawable : forall c i i' s s' pal pal', cfg_ok c -> is_bytes i -> addressable c i -> load c i = Ok s ->
  is_bytes i' -> addressable c i' -> load c i' = Ok s' -> same_but_palette s s' ->
  f_palette (af_file s) = Some pal -> f_palette (af_file s') = Some pal' ->
  forall inflate, inflate_ok inflate -> forall sel k sf t, sprite_fits c s -> nth_error (api_frames s) k = Some sf -> is_bytes t ->
  (debug c = true -> forall cel l, In cel (sf_cels sf) -> drawn s sel cel = Some l -> separable (ly_blend_mode l)) ->
  (exists r, render_frame c inflate s (Z.of_nat k) t sel = Ok r) ->
  exists r', render_frame c inflate s' (Z.of_nat k) t sel = Ok r'.
Proof. exact faded_drawable. Qed.
Print Assumptions C132_drawable.

(** ... with the same alphas if those of the palettes are the same, whatever the
    modes, ... *)
Theorem C132_alpha : forall c i i' s s' pal pal', cfg_ok c -> is_bytes i -> addressable c i -> load c i = Ok s ->
  is_bytes i' -> addressable c i' -> load c i' = Ok s' -> same_but_palette s s' ->
  f_palette (af_file s) = Some pal -> f_palette (af_file s') = Some pal' ->
  forall inflate, inflate_ok inflate -> forall sel k sf t t' r r', sprite_fits c s -> nth_error (api_frames s) k = Some sf ->
  palettes_rel equal_alpha pal pal' ->
  is_bytes t -> is_bytes t' -> canvas_rel s equal_alpha t t' ->
  render_frame c inflate s (Z.of_nat k) t sel = Ok r -> render_frame c inflate s' (Z.of_nat k) t' sel = Ok r' ->
  canvas_rel s equal_alpha r r'.
Proof. exact faded_alpha. Qed.
Print Assumptions C132_alpha.

(** ... with channels that differ no more than those of the palettes, for the modes
    normal, darken and lighten, ... *)
Theorem C132_within : forall c i i' s s' pal pal', cfg_ok c -> is_bytes i -> addressable c i -> load c i = Ok s ->
  is_bytes i' -> addressable c i' -> load c i' = Ok s' -> same_but_palette s s' ->
  f_palette (af_file s) = Some pal -> f_palette (af_file s') = Some pal' ->
  forall inflate, inflate_ok inflate -> forall sel d k sf t t' r r', 0 <= d -> sprite_fits c s -> nth_error (api_frames s) k = Some sf ->
  palettes_rel (within d) pal pal' ->
  (forall cel l, In cel (sf_cels sf) -> drawn s sel cel = Some l -> calm (ly_blend_mode l)) ->
  is_bytes t -> is_bytes t' -> canvas_rel s (within d) t t' ->
  render_frame c inflate s (Z.of_nat k) t sel = Ok r -> render_frame c inflate s' (Z.of_nat k) t' sel = Ok r' ->
  canvas_rel s (within d) r r'.
Proof. exact faded_within. Qed.
Print Assumptions C132_within.

(** ... and lighter if the palette is, for all separable modes but difference,
    exclusion, subtract and divide. *)
Theorem C132_lighter : forall c i i' s s' pal pal', cfg_ok c -> is_bytes i -> addressable c i -> load c i = Ok s ->
  is_bytes i' -> addressable c i' -> load c i' = Ok s' -> same_but_palette s s' ->
  f_palette (af_file s) = Some pal -> f_palette (af_file s') = Some pal' ->
  forall inflate, inflate_ok inflate -> forall sel k sf t t' r r', sprite_fits c s -> nth_error (api_frames s) k = Some sf ->
  palettes_rel lighter pal pal' ->
  (forall cel l, In cel (sf_cels sf) -> drawn s sel cel = Some l -> ascending (ly_blend_mode l)) ->
  is_bytes t -> is_bytes t' -> canvas_rel s lighter t t' ->
  render_frame c inflate s (Z.of_nat k) t sel = Ok r -> render_frame c inflate s' (Z.of_nat k) t' sel = Ok r' ->
  canvas_rel s lighter r r'.
Proof. exact faded_lighter. Qed.
Print Assumptions C132_lighter.

(** Two pixels, and a layer of some mode over the second one *)
Definition day (mode : Z) (a b : Z * Z * Z * Z) : bytes :=
  hdr 1 8 2 1 ++ frm [palette_ch 3 0 2 [(0, 0, 0, 255); a; b]; layer_ch 1 0 0 255 [97]; layer_ch 1 0 mode 200 [98];
    raw_cel_ch 0 0 0 255 2 1 [1; 2]; raw_cel_ch 1 1 0 255 1 1 [1]].
Definition no_inflate : inflater := fun _ _ => (ZError, []).
(** The colours differ by at most 10. *)
Example C132_example : exists raw raw' s s' pal pal',
  parse_raw_file dbg64 (day 0 (100, 150, 200, 255) (40, 50, 60, 128)) = Ok raw /\
  parse_raw_file dbg64 (day 0 (90, 140, 205, 255) (30, 55, 50, 128)) = Ok raw' /\
  same_picture_header (rw_header raw) (rw_header raw') /\ frames_by (Forall2 recoded) raw raw' /\ palette_of raw' = Ok (Some pal') /\
  load dbg64 (day 0 (100, 150, 200, 255) (40, 50, 60, 128)) = Ok s /\
  load dbg64 (day 0 (90, 140, 205, 255) (30, 55, 50, 128)) = Ok s' /\ same_but_palette s s' /\
  f_palette (af_file s) = Some pal /\ f_palette (af_file s') = Some pal' /\ palettes_rel (within 10) pal pal' /\
  render_frame dbg64 no_inflate s 0 (repeat 0 8) SelAll = Ok [100; 150; 200; 255; 92; 137; 182; 228] /\
  render_frame dbg64 no_inflate s' 0 (repeat 0 8) SelAll = Ok [90; 140; 205; 255; 82; 129; 185; 228].
Proof.
  do 6 eexists. split; [vm_compute; reflexivity|]. split; [vm_compute; reflexivity|]. split; [repeat split|]. split.
  { constructor; [split; [reflexivity|]|constructor].
    repeat (constructor; [first [left; reflexivity | right; split; reflexivity]|]). constructor. }
  split; [vm_compute; reflexivity|]. split; [vm_compute; reflexivity|]. split; [vm_compute; reflexivity|]. split; [repeat split|].
  split; [reflexivity|]. split; [reflexivity|]. split.
  - intros k x y Hx Hy. do 3 (destruct k as [|k]; [injection Hx as <-; injection Hy as <-; repeat split; vm_compute; congruence|]).
    cbn [nth_error] in Hx, Hy. assert (x = y) as -> by congruence. unfold within. rewrite !Z.sub_diag. cbn. lia.
  - split; [vm_compute; reflexivity|]. vm_compute. reflexivity.
Qed.
(** Lighter colours, of a layer in soft light and of one whose difference is taken *)
Definition shown (i : bytes) : option buf_out :=
  match load dbg64 i with Ok s => Some (render_frame dbg64 no_inflate s 0 (repeat 0 8) SelAll) | _ => None end.
Example C132_light :
  shown (day 9 (100, 150, 200, 255) (40, 50, 60, 128)) = Some (Ok [100; 150; 200; 255; 52; 83; 82; 228]) /\
  shown (day 9 (110, 150, 255, 255) (50, 90, 60, 128)) = Some (Ok [110; 150; 255; 255; 62; 112; 97; 228]).
Proof. split; vm_compute; reflexivity. Qed.
Example C132_dark :
  shown (day 10 (100, 150, 200, 255) (40, 50, 60, 128)) = Some (Ok [100; 150; 200; 255; 67; 106; 146; 228]) /\
  shown (day 10 (110, 150, 255, 255) (110, 90, 60, 128)) = Some (Ok [110; 150; 255; 255; 43; 88; 194; 228]).
Proof. split; vm_compute; reflexivity. Qed.
