(** What a frame is drawn from (C120) *)
From Verif.Model Require Import Loader.
From Verif.Spec Require Import Bytes RenderSpec Kept.
From Verif.Proofs Require Import RenderFacts RenderProps.

Section Kept.
Context (c : cfg) (inflate : inflater).

(** One drawing, given what it is *)
Definition load_of (f : file) (im : option image) (target : bytes) : buf_out :=
  match im with
  | Some im =>
      let* n := usizec c (im_width im * im_height im) in
      let* target_size := usizec c (n * 4) in
      if zlen target <? target_size then Err (TargetBufferTooSmall, target) else
      with_tail (skipn (Z.to_nat target_size) target) (decode_image c inflate f im (firstn (Z.to_nat target_size) target))
  | None => Panic PIndex
  end.
Definition draw_one (f : file) (target : bytes) (d : drawing) : buf_out :=
  let* n := usizec c (fst (dr_size d) * snd (dr_size d)) in
  let* n := usizec c (n * 4) in
  let* cel_target := vec_zeroed c n in
  let* cel_target := unwrap (load_of f (dr_image d) cel_target) in
  let* g := lift (blend_mode_to_blend_fn c (dr_mode d)) in
  render_pixels c (h_width (f_header f)) (h_height (f_header f))
    {| fc_origin := dr_origin d; fc_size := dr_size d; fc_layer_index := 0; fc_image_index := 0 |}
    cel_target g (dr_opacity d) target.

Lemma load_is s cel target : load_image c inflate s (fc_image_index cel) target = load_of (af_file s) (image_of s cel) target.
Proof.
  unfold load_image, image_of, get_index. destruct (Z.ltb_spec (fc_image_index cel) 0) as [N|N].
  - now replace (0 <=? fc_image_index cel) with false by lia.
  - replace (0 <=? fc_image_index cel) with true by lia. now destruct (nth_error (af_images s) _).
Qed.

Lemma draws_one s sel cel target : render_cel c inflate s sel target cel =
  fold_out (draw_one (af_file s)) (drawings s sel [cel]) target.
Proof.
  unfold render_cel, drawings, drawn. cbn [flat_map]. destruct (nth_error (af_layers s) _) as [l|]; [|reflexivity].
  rewrite chosen_is. destruct (ly_layer_type l) eqn:T; cbn [layer_type_eqb orb app fold_out]; try reflexivity.
  all: destruct (chosen sel (fc_layer_index cel) l); cbn [negb app fold_out]; [|reflexivity].
  all: unfold draw_one; cbn [dr_size dr_image dr_mode dr_origin dr_opacity].
  all: destruct (usizec c _) as [n|?|?]; cbn [bind]; [|reflexivity..].
  all: destruct (usizec c _) as [m|?|?]; cbn [bind]; [|reflexivity..].
  all: destruct (vec_zeroed c m) as [v|?|?]; cbn [bind]; [|reflexivity..].
  all: rewrite load_is; destruct (unwrap _) as [u|?|?]; cbn [bind]; [|reflexivity..].
  all: destruct (lift _) as [g|?|?]; cbn [bind]; [|reflexivity..].
  all: change (render_pixels c _ _ {| fc_origin := _; fc_size := _; fc_layer_index := 0; fc_image_index := 0 |})
         with (render_pixels c (h_width (f_header (af_file s))) (h_height (f_header (af_file s))) cel).
  all: now destruct (render_pixels _ _ _ _ _ _ _ _).
Qed.

Lemma draws s sel cels : forall target, fold_out (render_cel c inflate s sel) cels target =
  fold_out (draw_one (af_file s)) (drawings s sel cels) target.
Proof.
  induction cels as [|cel cels IH]; intro target; cbn [fold_out]; [reflexivity|].
  change (drawings s sel (cel :: cels)) with (drawings s sel ([cel] ++ cels)).
  unfold drawings at 1. rewrite flat_map_app. fold (drawings s sel [cel]) (drawings s sel cels).
  rewrite fold_out_app, <- draws_one. destruct (render_cel _ _ _ _ _ _); cbn [bind]; auto.
Qed.

Lemma draw_same s s' : same_canvas s s' ->
  (h_color_depth (f_header (af_file s)) = Indexed -> f_palette (af_file s) = f_palette (af_file s')) ->
  forall target d, draw_one (af_file s) target d = draw_one (af_file s') target d.
Proof.
  unfold same_canvas, canvas_width, canvas_height. intros (Ew & Eh & Ed) Ep target d. unfold draw_one. rewrite Ew, Eh.
  assert (E : forall im t, load_of (af_file s) im t = load_of (af_file s') im t).
  { intros [im|] t; [|reflexivity]. unfold load_of, decode_image. rewrite <- Ed.
    destruct (h_color_depth (f_header (af_file s))); try reflexivity. now rewrite Ep. }
  destruct (usizec c _) as [n|?|?]; cbn [bind]; [|reflexivity..]. destruct (usizec c _) as [m|?|?]; cbn [bind]; [|reflexivity..].
  destruct (vec_zeroed c m) as [v|?|?]; cbn [bind]; [|reflexivity..]. now rewrite E.
Qed.

Lemma drawn_alike_frames s s' sel sel' k k' sf sf' target :
  nth_error (api_frames s) k = Some sf -> nth_error (api_frames s') k' = Some sf' ->
  same_canvas s s' -> (h_color_depth (f_header (af_file s)) = Indexed -> f_palette (af_file s) = f_palette (af_file s')) ->
  drawings s sel (sf_cels sf) = drawings s' sel' (sf_cels sf') ->
  render_frame c inflate s (Z.of_nat k) target sel = render_frame c inflate s' (Z.of_nat k') target sel'.
Proof.
  intros Hk Hk' HC Ep H. pose proof HC as (Ew & Eh & _). unfold canvas_width, canvas_height in Ew, Eh.
  unfold render_frame. rewrite Ew, Eh.
  destruct (usizec c _) as [n|?|?]; cbn [bind]; [|reflexivity..]. destruct (usizec c _) as [m|?|?]; cbn [bind]; [|reflexivity..].
  destruct (_ <? _); [reflexivity|]. unfold api_frames in *.
  unfold get_index. replace (0 <=? Z.of_nat k) with true by lia. replace (0 <=? Z.of_nat k') with true by lia.
  rewrite !Nat2Z.id, Hk, Hk'. cbn [bind]. rewrite !draws, H. apply fold_out_ext. intros. now apply draw_same.
Qed.
End Kept.

(** ** Only the selected layers *)
Lemma wanted_is s sel cel : drawn s sel cel =
  match nth_error (af_layers s) (Z.to_nat (fc_layer_index cel)) with
  | Some l => if wanted sel (Z.of_nat (Z.to_nat (fc_layer_index cel))) l then Some l else None
  | None => None
  end.
Proof.
  unfold drawn, wanted. destruct (nth_error _ _) as [l|]; [|reflexivity].
  assert (E : chosen sel (Z.of_nat (Z.to_nat (fc_layer_index cel))) l = chosen sel (fc_layer_index cel) l)
    by (unfold chosen; now rewrite Nat2Z.id).
  rewrite E. now destruct (ly_layer_type l).
Qed.

Lemma wanted_at sel : forall ls a k l, nth_error ls k = Some l -> wanted sel (a + Z.of_nat k) l = true ->
  nth_error (wanted_from sel a ls) (length (wanted_from sel a (firstn k ls))) = Some l.
Proof.
  induction ls as [|x ls IH]; intros a k l E W; [destruct k; discriminate E|]. destruct k as [|k].
  - injection E as ->. replace (a + Z.of_nat 0) with a in W by lia. cbn. now rewrite W.
  - cbn [firstn wanted_from]. rewrite app_length, nth_error_app2 by lia.
    replace (_ + _ - _)%nat with (length (wanted_from sel (a + 1) (firstn k ls))) by lia.
    apply IH; [exact E|]. now replace (a + 1 + Z.of_nat k) with (a + Z.of_nat (S k)) by lia.
Qed.
Lemma wanted_type sel : forall ls a l, In l (wanted_from sel a ls) -> ly_layer_type l <> LGroup.
Proof.
  induction ls as [|x ls IH]; intros a l H; [destruct H|]. cbn [wanted_from] in H. apply in_app_or in H as [H|H]; [|now apply (IH (a + 1))].
  unfold wanted in H. destruct (ly_layer_type x) eqn:T, (chosen sel a x); try destruct H as [<-|[]]; try contradiction; rewrite T; discriminate.
Qed.

Lemma kept_drawings sel' s sel cels : sel' = SelVisible \/ sel' = SelAll ->
  drawings (kept sel s) sel' (kept_cels sel s cels) = drawings s sel cels.
Proof.
  intro Hs. induction cels as [|cel cels IH]; [reflexivity|]. unfold kept_cels, drawings in *. cbn [flat_map].
  rewrite flat_map_app, IH. f_equal. rewrite wanted_is. destruct (nth_error (af_layers s) _) as [l|] eqn:E; [|reflexivity].
  destruct (wanted _ _ _) eqn:W; [|reflexivity]. cbn [flat_map]. rewrite app_nil_r.
  unfold drawn at 1. cbn [fc_layer_index fc_origin fc_size kept af_layers]. unfold new_number, zlen. rewrite Nat2Z.id.
  unfold kept_layers. rewrite (map_nth_error switched_on _ _ (wanted_at sel _ 0 _ l E W)).
  cbn [switched_on ly_layer_type]. pose proof (wanted_type sel (af_layers s) 0 l) as T.
  assert (I : In l (wanted_from sel 0 (af_layers s))) by (eapply nth_error_In, wanted_at; eassumption). specialize (T I).
  assert (C : forall k, chosen sel' k (switched_on l) = true) by (intro; now destruct Hs; subst sel').
  destruct (ly_layer_type l); try contradiction; now rewrite C.
Qed.

Lemma kept_frames c inflate sel' s sel k target : sel' = SelVisible \/ sel' = SelAll ->
  render_frame c inflate (kept sel s) k target sel' = render_frame c inflate s k target sel.
Proof.
  intro Hs. destruct (Z_lt_le_dec k 0) as [N|N].
  - unfold render_frame, get_index. replace (0 <=? k) with false by lia. reflexivity.
  - rewrite <- (Z2Nat.id k N). destruct (nth_error (af_frames s) (Z.to_nat k)) as [sf|] eqn:E.
    + eapply drawn_alike_frames; [|exact E|now repeat split|reflexivity|].
      * unfold api_frames, kept. cbn [af_frames]. now rewrite (map_nth_error _ _ _ E).
      * cbn [sf_cels]. now apply kept_drawings.
    + unfold render_frame, get_index. cbn [kept af_frames af_file]. replace (0 <=? Z.of_nat (Z.to_nat k)) with true by lia.
      rewrite Nat2Z.id, E. assert (E' : nth_error (map (fun f => {| sf_duration := sf_duration f; sf_origin := sf_origin f;
        sf_cels := kept_cels sel s (sf_cels f) |}) (af_frames s)) (Z.to_nat k) = None).
      { apply nth_error_None. rewrite map_length. now apply nth_error_None. }
      now rewrite E'.
Qed.
