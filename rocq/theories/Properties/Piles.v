(** Many layers of mode normal against compositing without rounding (C115). *)
From Coq Require Import QArith Qabs.
From Verif.Model Require Import Loader.
From Verif.Spec Require Import Bytes BlendSpec ImageSpec RenderSpec Ideal Piles.
From Verif.Proofs Require Import PileProps BinaryFinal.
From Verif.Tests Require Import Configs Build.
Local Open Scope Z_scope.

(** ** C115 *)
(** The full claim is that rounding does not matter: [pile_within k k] for a
    small [k], whatever the number of layers.  Proved: for [n] layers alpha lies
    within [n] and channels times alpha within [2 n]; and within [1 / t] and
    [2 / t] if every layer contributes an alpha of at least [t]. *)
Theorem C115_frame_partial : forall c i s, cfg_ok c -> is_bytes i -> addressable c i -> load c i = Ok s ->
  forall inflate, inflate_ok inflate ->
  forall sel k sf target r, sprite_fits c s -> nth_error (api_frames s) k = Some sf -> is_bytes target ->
  (forall cel l, In cel (sf_cels sf) -> drawn s sel cel = Some l -> ly_blend_mode l = BNormal) ->
  render_frame c inflate s (Z.of_nat k) target sel = Ok r ->
  forall x y, 0 <= x < canvas_width s -> 0 <= y < canvas_height s ->
  exists back p fs, pixel (canvas_width s) target x y = Some back /\ pixel (canvas_width s) r x y = Some p /\
    pile inflate s sel x y (sf_cels sf) fs /\
    pile_within (inject_Z (Z.of_nat (length fs))) (2 * inject_Z (Z.of_nat (length fs))) fs back p /\
    forall t, (0 < t)%Q -> (forall front o, In (front, o) fs -> (t <= strength front o)%Q) -> pile_within (1 / t) (2 / t) fs back p.
Proof. exact frame_pile. Qed.
Print Assumptions C115_frame_partial.

Theorem C115_determined : forall inflate s sel x y cels fs,
  pile inflate s sel x y cels fs -> forall gs, pile inflate s sel x y cels gs -> fs = gs.
Proof. exact pile_unique. Qed.
Print Assumptions C115_determined.

(** The errors do add up: any number of faint white layers leaves an almost
    black pixel as it is, instead of turning it white. *)
Theorem C115_faint_refuted : forall c n, normals c (repeat (faint_white, 255) n) almost_black almost_black /\
  forall ch, In ch [pr; pg; pb] ->
    (254 * inject_Z (Z.of_nat n) / (254 + inject_Z (Z.of_nat n)) <=
     exact_channel ch (repeat (faint_white, 255%Z) n) (inject_Z (ch almost_black) * unit (pa almost_black)) -
     inject_Z (ch almost_black) * unit (pa almost_black))%Q.
Proof. exact faint_pile. Qed.
Print Assumptions C115_faint_refuted.

(** A file with ten such layers: 11 instead of 1. *)
Definition ten : list Z := [0; 1; 2; 3; 4; 5; 6; 7; 8; 9].
Definition faint_layers : bytes :=
  hdr 1 32 1 1 ++ frm (map (fun _ => layer_ch 1 0 0 255 [97]) ten ++ map (fun k => raw_cel_ch k 0 0 255 1 1 [255; 255; 255; 1]) ten).
Example C115_example : exists s sf, load dbg64 faint_layers = Ok s /\ nth_error (api_frames s) 0 = Some sf /\
  render_frame dbg64 (fun _ _ => (ZError, [])) s 0 [1; 1; 1; 255] SelAll = Ok [1; 1; 1; 255] /\
  pile (fun _ _ => (ZError, [])) s SelAll 0 0 (sf_cels sf) (repeat (faint_white, 255) 10) /\
  (10 < exact_channel pr (repeat (faint_white, 255%Z) 10) 1)%Q.
Proof.
  destruct (load dbg64 faint_layers) as [s|e|p] eqn:L; [|vm_compute in L; discriminate..].
  vm_compute in L. injection L as <-. eexists. eexists. split; [reflexivity|]. split; [vm_compute; reflexivity|].
  split; [vm_compute; reflexivity|]. split; [|vm_compute; reflexivity]. cbn [sf_cels repeat].
  do 10 (eapply (pile_draw _ _ _ _ _ _ _ {| ly_name := [97]; ly_opacity := 255; ly_blend_mode := BNormal; ly_visible := true; ly_layer_type := LNormal |}
           [255; 255; 255; 1] faint_white);
    [vm_compute; reflexivity|vm_compute; reflexivity
    |eexists; split; [vm_compute; reflexivity|]; split; vm_compute; reflexivity
    |vm_compute; reflexivity|]).
  apply pile_nil.
Qed.
