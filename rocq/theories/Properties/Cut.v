(** What lies at a pixel; pictures in pieces (C122). *)
From Verif.Model Require Import Loader.
From Verif.Spec Require Import Bytes ImageSpec BlendSpec RenderSpec Made Convert Trimmed Cut.
From Verif.Proofs Require Import CutProps TurnProps.
From Verif.Tests Require Import Configs Build.

(** ** C122 *)
(** Frames at whose pixels the same lies are drawn alike: however the cels are
    numbered, placed and cut, and whichever layers are selected. *)
Theorem C122_frames : forall c inflate s s' sel sel', cfg_ok c -> inflate_ok inflate ->
  typed c s -> typed c s' -> made_fits c s -> made_fits c s' -> canvas s' = canvas s ->
  forall k k' sf sf', nth_error (api_frames s) k = Some sf -> nth_error (api_frames s') k' = Some sf' ->
  (ready inflate s sel (sf_cels sf) <-> ready inflate s' sel' (sf_cels sf')) ->
  (forall x y, on_canvas s x y -> forall ts,
     lying inflate s sel x y (sf_cels sf) ts <-> lying inflate s' sel' x y (sf_cels sf') ts) ->
  forall target r, is_bytes target ->
  (render_frame c inflate s (Z.of_nat k) target sel = Ok r <-> render_frame c inflate s' (Z.of_nat k') target sel' = Ok r).
Proof. exact lying_frames. Qed.
Print Assumptions C122_frames.

(** In frames that are drawn, a pixel depends on nothing else. *)
Theorem C122_pixel : forall c inflate s s' sel sel', cfg_ok c -> inflate_ok inflate ->
  typed c s -> typed c s' -> made_fits c s -> made_fits c s' ->
  forall k k' sf sf' target target' r r', nth_error (api_frames s) k = Some sf -> nth_error (api_frames s') k' = Some sf' ->
  is_bytes target -> is_bytes target' ->
  render_frame c inflate s (Z.of_nat k) target sel = Ok r -> render_frame c inflate s' (Z.of_nat k') target' sel' = Ok r' ->
  forall x y x' y', on_canvas s x y -> on_canvas s' x' y' ->
  (exists ts, lying inflate s sel x y (sf_cels sf) ts /\ lying inflate s' sel' x' y' (sf_cels sf') ts) ->
  pixel (canvas_width s) target x y = pixel (canvas_width s') target' x' y' ->
  pixel (canvas_width s) r x y = pixel (canvas_width s') r' x' y'.
Proof. exact lying_pixel. Qed.
Print Assumptions C122_pixel.

(** Pictures can be cut into pieces, and put together again. *)
Theorem C122_cut : forall c inflate s s' sel sel', cfg_ok c -> inflate_ok inflate ->
  typed c s -> typed c s' -> made_fits c s -> made_fits c s' -> cut_up inflate s s' sel sel' ->
  forall k target r, is_bytes target ->
  (render_frame c inflate s (Z.of_nat k) target sel = Ok r <-> render_frame c inflate s' (Z.of_nat k) target sel' = Ok r).
Proof. exact cut_frames. Qed.
Print Assumptions C122_cut.

(** A picture of two pixels, and its halves in two layers (of the cels of one
    layer, the file keeps one). *)
Definition below : list Z := raw_cel_ch 0 0 0 255 2 1 [10; 20; 30; 255; 40; 50; 60; 128].
Definition one_piece : bytes := hdr 1 32 2 1 ++ frm [layer_ch 1 0 0 255 [97]; layer_ch 1 0 2 100 [98];
  below; raw_cel_ch 1 0 0 255 2 1 [70; 80; 90; 200; 100; 110; 120; 140]].
Definition two_pieces (x : Z) : bytes := hdr 1 32 2 1 ++ frm [layer_ch 1 0 0 255 [97]; layer_ch 1 0 2 100 [98]; layer_ch 1 0 2 100 [99];
  below; raw_cel_ch 1 x 0 255 1 1 [100; 110; 120; 140]; raw_cel_ch 2 0 0 255 1 1 [70; 80; 90; 200]].
Definition no_inflate : inflater := fun _ _ => (ZError, []).
Definition shown (i : bytes) : option buf_out :=
  match load dbg64 i with Ok s => Some (render_frame dbg64 no_inflate s 0 (repeat 0 8) SelVisible) | _ => None end.
Definition seen : bytes := Eval vm_compute in match shown one_piece with Some (Ok r) => r | _ => [] end.
Example C122_example : (exists s s', load dbg64 one_piece = Ok s /\ load dbg64 (two_pieces 1) = Ok s' /\ cut_up no_inflate s s' SelVisible SelVisible) /\
  zlen seen = 8 /\ shown one_piece = Some (Ok seen) /\ shown (two_pieces 1) = Some (Ok seen) /\
  shown (two_pieces 0) <> Some (Ok seen).
Proof.
  split; [|split; [reflexivity|split; [vm_compute; reflexivity|split; [vm_compute; reflexivity|vm_compute; discriminate]]]].
  do 2 eexists. split; [vm_compute; reflexivity|]. split; [vm_compute; reflexivity|].
  split; [reflexivity|]. constructor; [|constructor].
  assert (B : forall x, 0 <= x < 2 -> x = 0 \/ x = 1) by lia. assert (A : forall y, 0 <= y < 1 -> y = 0) by lia.
  cbn [sf_cels]. match goal with |- cut_cels _ ?s ?s' _ _ (?c1 :: ?c2 :: nil) (?p1 :: ?p2 :: ?p3 :: nil) =>
    pose proof (plain_view no_inflate s c1 _ eq_refl eq_refl (conj eq_refl eq_refl) eq_refl) as V1;
    pose proof (plain_view no_inflate s c2 _ eq_refl eq_refl (conj eq_refl eq_refl) eq_refl) as V2;
    pose proof (plain_view no_inflate s' p1 _ eq_refl eq_refl (conj eq_refl eq_refl) eq_refl) as W1;
    pose proof (plain_view no_inflate s' p2 _ eq_refl eq_refl (conj eq_refl eq_refl) eq_refl) as W2;
    pose proof (plain_view no_inflate s' p3 _ eq_refl eq_refl (conj eq_refl eq_refl) eq_refl) as W3;
    change (cut_cels no_inflate s s' SelVisible SelVisible [c1; c2] ([p1] ++ [p2; p3] ++ []));
    apply cut_cons; [|apply cut_cons; [|apply cut_nil]] end.
  - split; [discriminate|]. split; [eexists; now apply V1|].
    split; [constructor; [split; [now split|eexists; now apply W1]|constructor]|].
    intros x y [Hx Hy]. apply B in Hx. apply A in Hy. subst y. split.
    + intros E. destruct Hx as [-> | ->]; discriminate E.
    + intros p (Ec & v & Hv & E). apply V1 in Hv. subst v. eexists [], _, []. split; [reflexivity|]. split; [|constructor].
      destruct Hx as [-> | ->]; (split; [reflexivity|]; eexists; split; [now apply W1|exact E]).
  - split; [discriminate|]. split; [eexists; now apply V2|].
    split; [constructor; [split; [now split|eexists; now apply W2]|constructor; [split; [now split|eexists; now apply W3]|constructor]]|].
    intros x y [Hx Hy]. apply B in Hx. apply A in Hy. subst y. split.
    + intros E. destruct Hx as [-> | ->]; discriminate E.
    + intros p (Ec & v & Hv & E). apply V2 in Hv. subst v. destruct Hx as [-> | ->].
      * eexists [_], _, []. split; [reflexivity|]. split; [|repeat constructor].
        split; [reflexivity|]. eexists. split; [now apply W3|exact E].
      * eexists [], _, [_]. split; [reflexivity|]. split; [|repeat constructor].
        split; [reflexivity|]. eexists. split; [now apply W2|exact E].
Qed.
