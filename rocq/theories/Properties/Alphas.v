(** The alphas of pictures (C134). *)
From Verif.Model Require Import Loader.
From Verif.Spec Require Import Bytes ImageSpec BlendSpec RenderSpec Made Convert Trimmed Cut Alphas.
From Verif.Proofs Require Import AlphaProps TurnProps.
From Verif.Tests Require Import Configs Build.

(** ** C134 *)
(** Under separable modes, the alpha of a pixel is what the layers cover; ... *)
Theorem C134_covering : forall c inflate s sel, cfg_ok c -> inflate_ok inflate -> typed c s -> made_fits c s ->
  forall k sf target r, nth_error (api_frames s) k = Some sf -> is_bytes target ->
  render_frame c inflate s (Z.of_nat k) target sel = Ok r ->
  forall x y ts back p, on_canvas s x y -> lying inflate s sel x y (sf_cels sf) ts -> separable_ones ts ->
  pixel (canvas_width s) target x y = Some back -> pixel (canvas_width s) r x y = Some p ->
  covering ts (pa back) (pa p).
Proof. exact frame_covering. Qed.
Print Assumptions C134_covering.

(** ... that is one number, ... *)
Theorem C134_unique : forall ts a r r', covering ts a r -> covering ts a r' -> r = r'.
Proof. exact covering_unique. Qed.
Print Assumptions C134_unique.

(** ... and 0 exactly if nothing was there and each product of alpha and opacity
    rounds to 0. *)
Theorem C134_clear : forall c inflate s sel, cfg_ok c -> inflate_ok inflate -> typed c s -> made_fits c s ->
  forall k sf target r, nth_error (api_frames s) k = Some sf -> is_bytes target ->
  render_frame c inflate s (Z.of_nat k) target sel = Ok r ->
  forall x y ts back p, on_canvas s x y -> lying inflate s sel x y (sf_cels sf) ts -> separable_ones ts ->
  pixel (canvas_width s) target x y = Some back -> pixel (canvas_width s) r x y = Some p ->
  (pa p = 0 <-> pa back = 0 /\ Forall (fun t => match t with (front, _, o) => 2 * (pa front * o) < 255 end) ts).
Proof. exact frame_clear. Qed.
Print Assumptions C134_clear.

(** For all modes: where layers of the same alphas and opacities lie, with modes
    akin, over pixels of the same alpha, the alphas are the same, whatever the
    colours. *)
Theorem C134_colours : forall c inflate s s' sel sel', cfg_ok c -> inflate_ok inflate ->
  typed c s -> typed c s' -> made_fits c s -> made_fits c s' ->
  forall k k' sf sf' target target' r r', nth_error (api_frames s) k = Some sf -> nth_error (api_frames s') k' = Some sf' ->
  is_bytes target -> is_bytes target' ->
  render_frame c inflate s (Z.of_nat k) target sel = Ok r -> render_frame c inflate s' (Z.of_nat k') target' sel' = Ok r' ->
  forall x y x' y' ts ts' back back' p p', on_canvas s x y -> on_canvas s' x' y' ->
  lying inflate s sel x y (sf_cels sf) ts -> lying inflate s' sel' x' y' (sf_cels sf') ts' -> Forall2 same_veil ts ts' ->
  pixel (canvas_width s) target x y = Some back -> pixel (canvas_width s') target' x' y' = Some back' -> pa back = pa back' ->
  pixel (canvas_width s) r x y = Some p -> pixel (canvas_width s') r' x' y' = Some p' -> pa p = pa p'.
Proof. exact frame_veils. Qed.
Print Assumptions C134_colours.

(** Two layers, the second of opacity 100 *)
Definition veils (m : Z) (a b : list Z) : bytes :=
  hdr 1 32 1 1 ++ frm [layer_ch 1 0 0 255 [97]; layer_ch 1 0 m 100 [98]; raw_cel_ch 0 0 0 255 1 1 a; raw_cel_ch 1 0 0 255 1 1 b].
Definition no_inflate : inflater := fun _ _ => (ZError, []).
Definition shown (c : cfg) (i : bytes) : option buf_out :=
  match load c i with Ok s => Some (render_frame c no_inflate s 0 (repeat 0 4) SelVisible) | _ => None end.
(** Multiply *)
Example C134_example : exists s sf,
  load rel64 (veils 1 [10; 20; 30; 200] [40; 50; 60; 60]) = Ok s /\ nth_error (api_frames s) 0 = Some sf /\
  let ts := [(mkpx 10 20 30 200, BNormal, 255); (mkpx 40 50 60 60, BMultiply, 100)] in
  lying no_inflate s SelVisible 0 0 (sf_cels sf) ts /\ separable_ones ts /\ covering ts 0 205 /\
  render_frame rel64 no_inflate s 0 (repeat 0 4) SelVisible = Ok [11; 20; 29; 205].
Proof.
  do 2 eexists. split; [vm_compute; reflexivity|]. split; [reflexivity|]. cbv zeta. split.
  { cbn [sf_cels]. match goal with |- lying _ ?s _ _ _ [?c1; ?c2] _ =>
      pose proof (plain_view no_inflate s c1 _ eq_refl eq_refl (conj eq_refl eq_refl) eq_refl) as V1;
      pose proof (plain_view no_inflate s c2 _ eq_refl eq_refl (conj eq_refl eq_refl) eq_refl) as V2 end.
    eapply (lying_show _ _ _ _ _ _ _ {| ly_name := _; ly_opacity := 255; ly_blend_mode := BNormal; ly_visible := _; ly_layer_type := _ |}); [reflexivity| |].
    { split; [reflexivity|]. eexists. split; [now apply V1|reflexivity]. }
    eapply (lying_show _ _ _ _ _ _ _ {| ly_name := _; ly_opacity := 100; ly_blend_mode := BMultiply; ly_visible := _; ly_layer_type := _ |}); [reflexivity| |constructor].
    split; [reflexivity|]. eexists. split; [now apply V2|reflexivity]. }
  split; [repeat constructor|]. split; [|vm_compute; reflexivity].
  eapply (covering_cons _ _ _ _ _ 200 0); [cbv; split; congruence..|].
  eapply (covering_cons _ _ _ _ _ 24 19); [cbv; split; congruence..|]. apply covering_nil.
Qed.
(** Divide, with other colours; hue and luminosity, which give another alpha *)
Example C134_others :
  shown rel64 (veils 18 [110; 0; 30; 200] [0; 255; 60; 60]) = Some (Ok [120; 6; 39; 205]) /\
  shown rel64 (veils 12 [10; 20; 30; 200] [40; 50; 60; 60]) = Some (Ok [52; 36; 94; 214]) /\
  shown rel64 (veils 15 [110; 0; 30; 200] [0; 255; 60; 60]) = Some (Ok [148; 78; 75; 214]).
Proof. repeat split; vm_compute; reflexivity. Qed.
(** 1 * 100 rounds to 0, 2 * 100 to 1. *)
Example C134_faint :
  shown rel64 (veils 0 [10; 20; 30; 0] [40; 50; 60; 1]) = Some (Ok [40; 50; 60; 0]) /\
  shown rel64 (veils 0 [10; 20; 30; 0] [40; 50; 60; 2]) = Some (Ok [40; 50; 60; 1]).
Proof. split; vm_compute; reflexivity. Qed.
