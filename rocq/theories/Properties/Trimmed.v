(** Pictures without what does not show (C118). *)
From Verif.Model Require Import Loader.
From Verif.Spec Require Import Bytes ImageSpec BlendSpec RenderSpec Made Convert Trimmed.
From Verif.Proofs Require Import TrimProps TurnProps.
From Verif.Tests Require Import Configs Build.

(** ** C118 *)
(** Transparent parts of pictures and parts outside the canvas can be cut off,
    and blank cels left out. *)
Theorem C118_trimmed : forall c inflate s s' sel, cfg_ok c -> inflate_ok inflate ->
  typed c s -> typed c s' -> made_fits c s -> made_fits c s' -> trimmed inflate s s' ->
  forall k target target' r, is_bytes target -> is_bytes target' -> canvas_size s <= zlen target' ->
  same_looks (canvas s) target target' ->
  render_frame c inflate s (Z.of_nat k) target sel = Ok r ->
  exists r', render_frame c inflate s' (Z.of_nat k) target' sel = Ok r' /\ same_looks (canvas s) r r'.
Proof. exact trimmed_frames. Qed.
Print Assumptions C118_trimmed.

(** The other direction, for modes that do not panic. *)
Theorem C118_untrimmed : forall c inflate s s' sel, cfg_ok c -> inflate_ok inflate ->
  typed c s -> typed c s' -> made_fits c s -> made_fits c s' -> trimmed inflate s s' ->
  forall k target target' r', is_bytes target -> is_bytes target' -> canvas_size s <= zlen target ->
  same_looks (canvas s) target target' ->
  (forall sf cel l, nth_error (api_frames s) k = Some sf -> In cel (sf_cels sf) -> drawn s sel cel = Some l ->
     known_mode (ly_blend_mode l) /\ (debug c = false \/ separable (ly_blend_mode l))) ->
  render_frame c inflate s' (Z.of_nat k) target' sel = Ok r' ->
  exists r, render_frame c inflate s (Z.of_nat k) target sel = Ok r /\ same_looks (canvas s) r r'.
Proof. exact untrimmed_frames. Qed.
Print Assumptions C118_untrimmed.

(** A canvas of two pixels.  A picture of three with a transparent one, one that
    shows, and one outside the canvas; and a blank picture above it. *)
Definition whole (mode : Z) : bytes :=
  hdr 1 32 2 1 ++ frm [layer_ch 1 0 mode 255 [97]; layer_ch 1 0 mode 100 [98];
    raw_cel_ch 0 0 0 255 3 1 [1; 1; 1; 0; 40; 50; 60; 200; 9; 9; 9; 9]; raw_cel_ch 1 0 0 255 1 1 [7; 7; 7; 0]].
Definition cut (mode : Z) : bytes :=
  hdr 1 32 2 1 ++ frm [layer_ch 1 0 mode 255 [97]; layer_ch 1 0 mode 100 [98];
    raw_cel_ch 0 1 0 255 1 1 [40; 50; 60; 200]].
Definition no_inflate : inflater := fun _ _ => (ZError, []).
Definition drawn_over (c : cfg) (i : bytes) (target : bytes) : option buf_out :=
  match load c i with Ok s => Some (render_frame c no_inflate s 0 target SelVisible) | _ => None end.
Example C118_example : (exists s s', load dbg64 (whole 1) = Ok s /\ load dbg64 (cut 1) = Ok s' /\ trimmed no_inflate s s') /\
  drawn_over dbg64 (whole 1) (repeat 0 8) = Some (Ok [7; 7; 7; 0; 40; 50; 60; 200]) /\
  drawn_over dbg64 (cut 1) (repeat 0 8) = Some (Ok [0; 0; 0; 0; 40; 50; 60; 200]).
Proof.
  split; [|split; vm_compute; reflexivity].
  do 2 eexists. split; [vm_compute; reflexivity|]. split; [vm_compute; reflexivity|].
  split; [reflexivity|]. split; [reflexivity|]. constructor; [|constructor].
  assert (B : forall x, 0 <= x < 2 -> x = 0 \/ x = 1) by lia. assert (A : forall y, 0 <= y < 1 -> y = 0) by lia.
  apply trimmed_cons; [|apply trimmed_drop; [|apply trimmed_nil]].
  - match goal with |- trimmed_cel _ ?s ?s' ?cel ?cel' =>
      pose proof (plain_view no_inflate s cel _ eq_refl eq_refl (conj eq_refl eq_refl) eq_refl) as V;
      pose proof (plain_view no_inflate s' cel' _ eq_refl eq_refl (conj eq_refl eq_refl) eq_refl) as V' end.
    split; [reflexivity|]. split; [eexists; now apply V|]. split; [eexists; now apply V'|].
    intros x y [Hx Hy]. apply B in Hx. apply A in Hy. subst y. unfold shows. split.
    + intros p (Ec & v & Hv & E). apply V' in Hv. subst v. destruct Hx as [-> | ->]; [discriminate Ec|].
      split; [reflexivity|]. eexists. split; [now apply V|]. exact E.
    + intros p (Ec & v & Hv & E). apply V in Hv. subst v. destruct Hx as [-> | ->].
      * right. vm_compute in E. injection E as <-. reflexivity.
      * left. split; [reflexivity|]. eexists. split; [now apply V'|]. exact E.
  - match goal with |- blank_cel _ ?s ?cel =>
      pose proof (plain_view no_inflate s cel _ eq_refl eq_refl (conj eq_refl eq_refl) eq_refl) as V end.
    split; [eexists; now apply V|]. intros x y p [Hx Hy] (Ec & v & Hv & E). apply V in Hv. subst v.
    apply B in Hx. apply A in Hy. subst y. destruct Hx as [-> | ->]; [|discriminate Ec].
    vm_compute in E. injection E as <-. reflexivity.
Qed.
(** Debug builds may refuse the transparent pixels of mode hue (C49). *)
Example C118_needed : drawn_over dbg64 (whole 12) [200; 100; 50; 255; 0; 0; 0; 0] = Some (Panic PDebugAssert) /\
  drawn_over dbg64 (cut 12) [200; 100; 50; 255; 0; 0; 0; 0] = Some (Ok [200; 100; 50; 255; 40; 50; 60; 200]).
Proof. split; vm_compute; reflexivity. Qed.
