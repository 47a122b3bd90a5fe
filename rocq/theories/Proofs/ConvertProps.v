(** Converted sprites (C109) *)
From Verif.Model Require Import Loader.
From Verif.Spec Require Import Bytes ImageSpec RenderSpec Made Convert.
From Verif.Proofs Require Import ImageFacts UnpackProps.

Lemma render_same c inflate s s' : canvas_width s' = canvas_width s -> canvas_height s' = canvas_height s ->
  af_layers s' = af_layers s -> af_frames s' = af_frames s ->
  (forall j target, load_image c inflate s j target = load_image c inflate s' j target) ->
  (forall k target sel, render_frame c inflate s k target sel = render_frame c inflate s' k target sel) /\
  (forall hasher k target,
     combined_frame_image c inflate hasher s k target = combined_frame_image c inflate hasher s' k target).
Proof.
  unfold canvas_width, canvas_height. intros Ew Eh El Ef H.
  assert (R : forall k target sel, render_frame c inflate s k target sel = render_frame c inflate s' k target sel).
  { intros k target sel. unfold render_frame. rewrite Ew, Eh, Ef.
    destruct (usizec c _) as [n|x|p]; cbn [bind]; try reflexivity.
    destruct (usizec c _) as [n'|x|p]; cbn [bind]; try reflexivity.
    destruct (_ <? _); [reflexivity|].
    destruct (get_index _ _) as [fr|x|p]; cbn [bind]; try reflexivity.
    apply fold_out_ext. intros t cel. unfold render_cel. rewrite El, Ew, Eh.
    destruct (nth_error _ _) as [l|]; [|reflexivity]. destruct (_ || _); [reflexivity|].
    destruct (usizec c _) as [m|x|p]; cbn [bind]; try reflexivity.
    destruct (usizec c _) as [m'|x|p]; cbn [bind]; try reflexivity.
    destruct (vec_zeroed c m') as [v|x|p]; cbn [bind]; try reflexivity.
    now rewrite H. }
  split; [exact R|]. intros. unfold combined_frame_image. now rewrite R, Ef.
Qed.

Lemma gray_rgba_length n : forall l, zlen l = 2 * Z.of_nat n -> zlen (gray_rgba l) = 4 * Z.of_nat n.
Proof.
  induction n as [|n IH]; intros l H.
  - destruct l; [reflexivity|unfold zlen in H; cbn in H; lia].
  - destruct l as [|v [|a l]]; try (unfold zlen in H; cbn in H; lia).
    cbn [gray_rgba]. unfold zlen in *. cbn [length] in *. specialize (IH l). lia.
Qed.
Lemma index_rgba_length pal l : zlen (index_rgba pal l) = 4 * zlen l.
Proof. unfold zlen, index_rgba in *. induction l as [|x l IH]; [reflexivity|]. cbn [flat_map app length]. lia. Qed.

Section Convert.
Context (c : cfg) (inflate : inflater).
Hypothesis Hc : cfg_ok c.

Lemma decode_converted f f' im im' target : typed_image c im -> rgba_size im < 2 ^ usize_bits c ->
  (forall p, f_palette f = Some p -> zlen p = 256) ->
  zlen target = rgba_size im -> h_color_depth (f_header f') = Rgba -> true_colour f im im' ->
  decode_image c inflate f im target = decode_image c inflate f' im' target.
Proof.
  intros (Hw & Hh & Hb & _) Hs Hp Ht Hd (Ew & Eh & Ez & Ez' & H). unfold decode_image. rewrite Hd, Ez, Ez'.
  unfold rgba_size in *. set (a := im_width im * im_height im) in *. assert (Ha : 0 <= a) by (unfold a; nia).
  destruct (h_color_depth (f_header f)).
  - now rewrite H.
  - destruct H as [Hl ->]. rewrite (gray_ok c _ target (Z.to_nat a)) by (assumption || lia). replace (zlen (im_data im) =? _) with true by lia.
    rewrite (gray_rgba_length (Z.to_nat a)) by lia. now replace (zlen target =? _) with true by lia.
  - destruct H as (pal & Epal & Hl & ->). rewrite Epal. cbn [need_palette bind].
    rewrite (index_ok c pal _ target a) by (try apply Hp; (assumption || lia)).
    replace (zlen (im_data im) =? a) with true by lia.
    rewrite index_rgba_length. now replace (zlen target =? _) with true by lia.
  - contradiction.
Qed.

Lemma load_converted s s' j target : typed c s -> Forall (fun im => rgba_size im < 2 ^ usize_bits c) (af_images s) ->
  converted s s' -> load_image c inflate s j target = load_image c inflate s' j target.
Proof.
  intros (_ & _ & Hp & Hi & _) Hs (Hd & _ & _ & _ & _ & HF). unfold load_image, get_index. destruct (0 <=? j); [|reflexivity].
  pose proof (Forall2_nth _ _ _ HF (Z.to_nat j)) as H.
  destruct (nth_error (af_images s) (Z.to_nat j)) as [im|] eqn:E, (nth_error (af_images s') (Z.to_nat j)) as [im'|];
    try contradiction; [|reflexivity].
  rewrite Forall_forall in Hs, Hi. pose proof (Hi im (nth_error_In _ _ E)) as Hty. pose proof (Hs im (nth_error_In _ _ E)) as Hsz.
  cbn [bind]. pose proof H as (-> & -> & _). pose proof Hty as (Hw & Hh & _).
  unfold rgba_size in Hsz. rewrite usizec_id by nia. cbn [bind]. rewrite usizec_id by nia. cbn [bind].
  destruct (zlen target <? _) eqn:L; [reflexivity|]. f_equal. apply decode_converted; try assumption.
  - intros p Ep. now apply Hp in Ep.
  - unfold rgba_size. apply zlen_firstn. nia.
Qed.
End Convert.

Lemma converted_alike c inflate s s' : cfg_ok c -> typed c s ->
  Forall (fun im => rgba_size im < 2 ^ usize_bits c) (af_images s) -> converted s s' ->
  (forall j target, load_image c inflate s j target = load_image c inflate s' j target) /\
  (forall k target sel, render_frame c inflate s k target sel = render_frame c inflate s' k target sel) /\
  (forall hasher k target,
     combined_frame_image c inflate hasher s k target = combined_frame_image c inflate hasher s' k target).
Proof.
  intros Hc Ht Hs H. pose proof (fun j target => load_converted c inflate Hc s s' j target Ht Hs H) as L.
  split; [exact L|]. destruct H as (_ & Ew & Eh & El & Ef & _). now apply render_same.
Qed.
