(** Layer opacity moved into the pictures (C117). *)
From Verif.Model Require Import Loader.
From Verif.Spec Require Import Bytes ImageSpec BlendSpec RenderSpec Made Convert Baked.
From Verif.Proofs Require Import BakeProps.
From Verif.Tests Require Import Configs Build.

(** ** C117 *)
(** The full claim is without the condition on the modes, which is false:
    [C117_hsl_refuted]. *)
Theorem C117_baked_partial : forall c inflate s s' sel, cfg_ok c -> inflate_ok inflate ->
  typed c s -> typed c s' -> made_fits c s -> made_fits c s' -> baked s s' ->
  forall k target, is_bytes target ->
  (forall sf cel l, nth_error (api_frames s) k = Some sf -> In cel (sf_cels sf) -> drawn s sel cel = Some l ->
     ~ hsl (ly_blend_mode l)) ->
  render_frame c inflate s (Z.of_nat k) target sel = render_frame c inflate s' (Z.of_nat k) target sel.
Proof. exact baked_frames. Qed.
Print Assumptions C117_baked_partial.

(** Two layers of opacity 128 and 51, and the same with opaque layers. *)
Definition faint (mode : Z) : bytes :=
  hdr 2 32 2 1 ++ frm [layer_ch 1 0 mode 128 [97]; layer_ch 1 0 mode 51 [98];
    raw_cel_ch 0 0 0 255 2 1 [10; 200; 30; 255; 40; 50; 60; 100]] ++
  frm [raw_cel_ch 0 0 0 255 2 1 [10; 200; 30; 255; 40; 50; 60; 100]; raw_cel_ch 1 1 0 255 1 1 [7; 8; 9; 200]].
Definition strong (mode : Z) : bytes :=
  hdr 2 32 2 1 ++ frm [layer_ch 1 0 mode 255 [97]; layer_ch 1 0 mode 255 [98];
    raw_cel_ch 0 0 0 255 2 1 [10; 200; 30; 128; 40; 50; 60; 50]] ++
  frm [raw_cel_ch 0 0 0 255 2 1 [10; 200; 30; 128; 40; 50; 60; 50]; raw_cel_ch 1 1 0 255 1 1 [7; 8; 9; 40]].
Definition second_frame (c : cfg) (i : bytes) : option buf_out :=
  match load c i with Ok s => Some (render_frame c (fun _ _ => (ZError, [])) s 1 [90; 110; 130; 255; 0; 250; 0; 200] SelVisible) | _ => None end.
Definition baked_pair (c : cfg) (i i' : bytes) : Prop := exists s s', load c i = Ok s /\ load c i' = Ok s' /\ baked s s'.
Local Ltac bake_pixels :=
  let A := fresh in let B := fresh in
  assert (A : forall x, 0 <= x < 1 -> x = 0) by lia; assert (B : forall x, 0 <= x < 2 -> x = 0 \/ x = 1) by lia;
  do 3 (split; [reflexivity|]); do 3 eexists; do 3 (split; [reflexivity|]); do 2 (split; [split; reflexivity|]);
  do 2 (split; [reflexivity|]); cbn [im_width im_height]; intros x y p Hx Hy;
  apply A in Hy; subst y; first [apply A in Hx; subst x|apply B in Hx; destruct Hx as [-> | ->]];
  let E := fresh in intro E; vm_compute in E; injection E as <-; eexists; (split; [vm_compute; reflexivity|]);
  unfold faded, rounded; cbn; lia.
Local Ltac bake_pair :=
  do 2 eexists; split; [vm_compute; reflexivity|]; split; [vm_compute; reflexivity|]; do 3 (split; [reflexivity|]);
  split; [do 2 (apply Forall2_cons; [reflexivity|]); apply Forall2_nil|];
  apply Forall2_cons; [apply Forall2_cons; [bake_pixels|apply Forall2_nil]|];
  apply Forall2_cons; [|apply Forall2_nil]; do 2 (apply Forall2_cons; [bake_pixels|]); apply Forall2_nil.
Example C117_example : baked_pair dbg64 (faint 1) (strong 1) /\
  second_frame dbg64 (faint 1) = Some (Ok [47; 98; 73; 255; 2; 167; 3; 218]) /\
  second_frame dbg64 (strong 1) = Some (Ok [47; 98; 73; 255; 2; 167; 3; 218]).
Proof. split; [bake_pair|split; vm_compute; reflexivity]. Qed.

(** Mode hue takes its own alpha from the picture, without the opacity. *)
Theorem C117_hsl_refuted : baked_pair rel64 (faint 12) (strong 12) /\
  second_frame rel64 (faint 12) = Some (Ok [90; 110; 130; 255; 28; 206; 82; 219]) /\
  second_frame rel64 (strong 12) = Some (Ok [46; 182; 106; 255; 47; 155; 239; 251]).
Proof. split; [bake_pair|split; vm_compute; reflexivity]. Qed.
Print Assumptions C117_hsl_refuted.
