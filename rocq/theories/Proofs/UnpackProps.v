(** Compressed pictures, with any decompressor that reads zlib streams (C108) *)
From Verif.Model Require Import Loader Inflate.
From Verif.Spec Require Import Bytes LoaderSpec ImageSpec RenderSpec Zlib Deflate Made.
From Verif.Proofs Require Import ImageFacts DeflateFacts.

Lemma unique_stream s r w s' r' w' : s ++ r = s' ++ r' -> zlib_stream s w -> zlib_stream s' w' -> w = w'.
Proof.
  intros E H H'. set (n := Z.max (zlen w) (zlen w')).
  pose proof (inflate_complete s w r n H ltac:(lia)) as A.
  pose proof (inflate_complete s' w' r' n H' ltac:(lia)) as B.
  rewrite E in A. congruence.
Qed.

Lemma fold_out_ext {E A B} (f g : A -> B -> out E A) l : (forall a b, f a b = g a b) ->
  forall a, fold_out f l a = fold_out g l a.
Proof. intro H. induction l as [|x l IH]; intro a; cbn; [reflexivity|]. rewrite H. destruct (g a x); cbn; auto. Qed.

Lemma Forall2_nth {A B} (R : A -> B -> Prop) l l' : Forall2 R l l' -> forall n,
  match nth_error l n, nth_error l' n with
  | Some x, Some y => R x y
  | None, None => True
  | _, _ => False
  end.
Proof. induction 1; intros [|n]; cbn; auto. apply IHForall2. Qed.

Lemma zlib_streams inflate : reads_zlib inflate -> reads_streams inflate.
Proof.
  intros H stream rest n w Hb Hs Hn. apply H; [exact Hb|unfold zlen in *; lia|]. split; [exact Hn|eauto].
Qed.

Section Reads.
Context (c : cfg) (inflate : inflater).
Hypothesis Hc : cfg_ok c.
Hypothesis Hr : reads_streams inflate.

Lemma decompress_stream stream rest px (old : bytes) : is_bytes (stream ++ rest) -> zlib_stream stream px ->
  zlen px = zlen old -> decompress inflate (stream ++ rest) old = Ok px.
Proof.
  intros Hb Hs Hl. unfold decompress.
  rewrite (Hr stream rest (zlen old) px Hb Hs) by lia.
  rewrite skipn_all2 by (unfold zlen in Hl; lia). now rewrite app_nil_r.
Qed.

Lemma decode_unpacks f im im' target : typed_image c im -> rgba_size im < 2 ^ usize_bits c ->
  zlen target = rgba_size im -> unpacks (h_color_depth (f_header f)) im im' ->
  decode_image c inflate f im target = decode_image c inflate f im' target.
Proof.
  intros (Hw & Hh & Hb & _) Hs Ht U. destruct U as [im|im stream rest px Hz Hd Hst Hl]; [reflexivity|].
  assert (HU : 2 ^ usize_bits c = 2 * 2 ^ (usize_bits c - 1)) by now apply usize_pos.
  unfold decode_image. rewrite Hz. cbn [im_compressed im_data].
  unfold rgba_size, pixel_bytes in *. set (a := im_width im * im_height im) in *. assert (Ha : 0 <= a) by (unfold a; nia).
  rewrite Hd in *. destruct (h_color_depth (f_header f)).
  - rewrite (decompress_stream stream rest px target Hb Hst) by lia.
    now replace (zlen target =? zlen px) with true by lia.
  - rewrite usizec_id by lia. cbn [bind]. rewrite usizec_id by lia. cbn [bind]. unfold vec_zeroed.
    replace (a * 2 <? _) with true by lia. cbn [bind].
    rewrite (decompress_stream stream rest px (repeat 0 (Z.to_nat (a * 2))) Hb Hst) by (rewrite zlen_repeat; lia). reflexivity.
  - rewrite usizec_id by lia. cbn [bind]. unfold vec_zeroed.
    replace (a <? _) with true by lia. cbn [bind].
    rewrite (decompress_stream stream rest px (repeat 0 (Z.to_nat a)) Hb Hst) by (rewrite zlen_repeat; lia). reflexivity.
  - reflexivity.
Qed.

Lemma load_unpacked s s' j target :
  typed c s -> Forall (fun im => rgba_size im < 2 ^ usize_bits c) (af_images s) -> unpacked s s' ->
  load_image c inflate s j target = load_image c inflate s' j target.
Proof.
  intros (_ & _ & _ & Hi & _) Hs (Ef & _ & _ & _ & HF). unfold load_image, get_index. destruct (0 <=? j); [|reflexivity].
  pose proof (Forall2_nth _ _ _ HF (Z.to_nat j)) as H.
  destruct (nth_error (af_images s) (Z.to_nat j)) as [im|] eqn:E, (nth_error (af_images s') (Z.to_nat j)) as [im'|];
    try contradiction; [|reflexivity].
  rewrite Forall_forall in Hs, Hi. pose proof (Hi im (nth_error_In _ _ E)) as Hty. pose proof (Hs im (nth_error_In _ _ E)) as Hsz.
  assert (Ew : im_width im' = im_width im /\ im_height im' = im_height im) by (destruct H; split; reflexivity).
  cbn [bind]. destruct Ew as [-> ->]. pose proof Hty as (Hw & Hh & _).
  unfold rgba_size in Hsz. rewrite usizec_id by nia. cbn [bind]. rewrite usizec_id by nia. cbn [bind].
  destruct (zlen target <? _) eqn:L; [reflexivity|]. rewrite Ef. f_equal. apply decode_unpacks; try assumption.
  unfold rgba_size. apply zlen_firstn. nia.
Qed.

Lemma render_unpacked s s' k target sel :
  typed c s -> Forall (fun im => rgba_size im < 2 ^ usize_bits c) (af_images s) -> unpacked s s' ->
  render_frame c inflate s k target sel = render_frame c inflate s' k target sel.
Proof.
  intros Hty Hs U. pose proof U as (Ef & El & Efr & _ & _). unfold render_frame. rewrite Ef, Efr.
  destruct (usizec c _) as [n|x|p]; cbn [bind]; try reflexivity.
  destruct (usizec c _) as [n'|x|p]; cbn [bind]; try reflexivity.
  destruct (_ <? _); [reflexivity|].
  destruct (get_index _ _) as [fr|x|p]; cbn [bind]; try reflexivity.
  apply fold_out_ext. intros t cel. unfold render_cel. rewrite El, Ef.
  destruct (nth_error _ _) as [l|]; [|reflexivity]. destruct (_ || _); [reflexivity|].
  destruct (usizec c _) as [m|x|p]; cbn [bind]; try reflexivity.
  destruct (usizec c _) as [m'|x|p]; cbn [bind]; try reflexivity.
  destruct (vec_zeroed c m') as [v|x|p]; cbn [bind]; try reflexivity.
  now rewrite (load_unpacked s s') by assumption.
Qed.

Lemma combined_unpacked hasher s s' k target :
  typed c s -> Forall (fun im => rgba_size im < 2 ^ usize_bits c) (af_images s) -> unpacked s s' ->
  combined_frame_image c inflate hasher s k target = combined_frame_image c inflate hasher s' k target.
Proof.
  intros Hty Hs U. unfold combined_frame_image. rewrite (render_unpacked s s') by assumption.
  now destruct U as (_ & _ & -> & _).
Qed.

End Reads.

Section Damage.
Context (c : cfg) (inflate : inflater).
Hypothesis Hc : cfg_ok c.
Hypothesis Hr : reads_zlib inflate.

(** Ends with the error exactly if there is no stream. *)
Lemma decompress_outcome data (old : bytes) : is_bytes data ->
  match decompress inflate data old with
  | Ok t => exists stream rest w, data = stream ++ rest /\ zlib_stream stream w /\ zlen w <= zlen old
  | Err (e, _) => e = DecompressError /\
      ~ exists stream rest w, data = stream ++ rest /\ zlib_stream stream w /\ zlen w <= zlen old
  | Panic _ => False
  end.
Proof.
  intro Hb. assert (H0 : 0 <= zlen old) by (unfold zlen; lia). unfold decompress.
  assert (N : forall st w, inflate data (zlen old) = (st, w) -> st <> ZStreamEnd ->
    ~ exists stream rest w', data = stream ++ rest /\ zlib_stream stream w' /\ zlen w' <= zlen old).
  { intros st w E Hst (stream & rest & w' & Ed & Hs & Hl).
    rewrite (proj2 (Hr data (zlen old) w' Hb H0)) in E by eauto. injection E as E _. now destruct Hst. }
  destruct (inflate data (zlen old)) as [[] w] eqn:E.
  1, 2, 4: split; [reflexivity|]; apply (N _ _ eq_refl); discriminate.
  destruct (proj1 (Hr data (zlen old) w Hb H0) E) as (Hl & stream & rest & Ed & Hs). eauto 6.
Qed.

(** Only the decompressor reports its error. *)
Lemma converted_fold {B} (g : bytes -> B -> buf_out) l : (forall a b e, g a b <> Err e) ->
  forall x e, fold_out g l x <> Err e.
Proof.
  intro Hg. induction l as [|b l IH]; cbn; [discriminate|]. intros x e.
  destruct (g x b) eqn:E; cbn; [now apply IH|now apply Hg in E|discriminate].
Qed.
Lemma set4_err t k a b x y e : @set4 (load_image_error * bytes) t k a b x y <> Err e.
Proof.
  unfold set4. destruct (set_index t k a) eqn:E1; cbn [bind]; [|now apply set_index_err in E1|discriminate].
  destruct (set_index _ (k + 1) b) eqn:E2; cbn [bind]; [|now apply set_index_err in E2|discriminate].
  destruct (set_index _ (k + 2) x) eqn:E3; cbn [bind]; [|now apply set_index_err in E3|discriminate].
  apply set_index_err.
Qed.
Lemma gray_err src u t : grayscale_to_rgba c src u <> Err (DecompressError, t).
Proof.
  unfold grayscale_to_rgba. destruct (usizec c _) eqn:E1; cbn [bind]; [|now apply usizec_err in E1|discriminate].
  destruct (negb _); [discriminate|]. apply converted_fold. intros a0 [i ch] e0.
  destruct (get_index ch 0) eqn:G0; cbn [bind]; [|now apply get_index_err in G0|discriminate].
  destruct (get_index ch 1) eqn:G1; cbn [bind]; [|now apply get_index_err in G1|discriminate]. apply set4_err.
Qed.
Lemma indexed_err src pal u t : indexed_to_rgba c src pal u <> Err (DecompressError, t).
Proof.
  unfold indexed_to_rgba. destruct (usizec c _) eqn:E1; cbn [bind]; [|now apply usizec_err in E1|discriminate].
  destruct (negb _); [discriminate|]. apply converted_fold. intros a0 [i ch] e0.
  destruct (get_index pal ch) eqn:G0; cbn [bind]; [|now apply get_index_err in G0|discriminate]. apply set4_err.
Qed.

Lemma decode_damaged f im target : typed_image c im -> rgba_size im < 2 ^ usize_bits c ->
  zlen target = rgba_size im -> im_compressed im = true -> (forall k, h_color_depth (f_header f) <> DUnknown k) ->
  ((exists t, decode_image c inflate f im target = Err (DecompressError, t)) <->
   ~ exists stream rest w, im_data im = stream ++ rest /\ zlib_stream stream w /\
       zlen w <= pixel_bytes (h_color_depth (f_header f)) im).
Proof.
  intros (Hw & Hh & Hb & _) Hs Ht Hz Hk.
  assert (HU : 2 ^ usize_bits c = 2 * 2 ^ (usize_bits c - 1)) by now apply usize_pos.
  unfold decode_image. rewrite Hz. unfold rgba_size, pixel_bytes in *.
  set (a := im_width im * im_height im) in *. assert (Ha : 0 <= a) by (unfold a; nia).
  destruct (h_color_depth (f_header f)) as [| | |k].
  - pose proof (decompress_outcome (im_data im) target Hb) as D. rewrite Ht in D.
    destruct (decompress _ _ _) as [t|[e t]|p]; [|destruct D as [-> D]|contradiction].
    + split; [intros (u & [=])|]. intros N. now destruct N.
    + split; eauto.
  - rewrite usizec_id by lia. cbn [bind]. rewrite usizec_id by lia. cbn [bind]. unfold vec_zeroed.
    replace (a * 2 <? _) with true by lia. cbn [bind].
    pose proof (decompress_outcome (im_data im) (repeat 0 (Z.to_nat (a * 2))) Hb) as D. rewrite zlen_repeat, Z2Nat.id in D by lia.
    destruct (decompress _ _ _) as [t|[e t]|p]; [|destruct D as [-> D]|contradiction]; cbn [local_buf map_err bind].
    + split; [intros (u & E); now apply gray_err in E|]. intros N. now destruct N.
    + split; eauto.
  - rewrite usizec_id by lia. cbn [bind]. unfold vec_zeroed.
    replace (a <? _) with true by lia. cbn [bind]. rewrite Z.mul_1_r.
    pose proof (decompress_outcome (im_data im) (repeat 0 (Z.to_nat a)) Hb) as D. rewrite zlen_repeat, Z2Nat.id in D by lia.
    destruct (decompress _ _ _) as [t|[e t]|p]; [|destruct D as [-> D]|contradiction]; cbn [local_buf map_err bind].
    + split; [|intros N; now destruct N]. intros (u & E). destruct (f_palette f); cbn in E; [now apply indexed_err in E|discriminate].
    + split; eauto.
  - now destruct (Hk k).
Qed.

Lemma load_damaged s j im target : typed c s -> nth_error (af_images s) j = Some im -> rgba_size im < 2 ^ usize_bits c ->
  rgba_size im <= zlen target -> im_compressed im = true ->
  (forall k, h_color_depth (f_header (af_file s)) <> DUnknown k) ->
  ((exists t, load_image c inflate s (Z.of_nat j) target = Err (DecompressError, t)) <->
   ~ exists stream rest w, im_data im = stream ++ rest /\ zlib_stream stream w /\
       zlen w <= pixel_bytes (h_color_depth (f_header (af_file s))) im).
Proof.
  intros (_ & _ & _ & Hi & _) Hj Hsz Hl Hz Hk.
  assert (Hty : typed_image c im) by (rewrite Forall_forall in Hi; apply Hi; eapply nth_error_In, Hj). unfold load_image, get_index. replace (0 <=? Z.of_nat j) with true by lia.
  rewrite Nat2Z.id, Hj. cbn [bind]. pose proof Hty as (Hw & Hh & _).
  unfold rgba_size in Hsz, Hl. rewrite usizec_id by nia. cbn [bind]. rewrite usizec_id by nia. cbn [bind].
  replace (zlen target <? _) with false by lia.
  rewrite <- (decode_damaged (af_file s) im (firstn (Z.to_nat (rgba_size im)) target)); try assumption.
  2: apply zlen_firstn; unfold rgba_size; nia.
  unfold rgba_size.
  destruct (decode_image _ _ _ _ _) as [t|[e t]|p]; cbn [with_tail]; split; intros (u & E); try discriminate.
  - injection E as -> _. eauto.
  - injection E as -> _. eauto.
Qed.
End Damage.

Lemma unpacked_pictures c inflate s s' j target : cfg_ok c -> reads_streams inflate ->
  typed c s -> Forall (fun im => rgba_size im < 2 ^ usize_bits c) (af_images s) -> unpacked s s' ->
  load_image c inflate s j target = load_image c inflate s' j target.
Proof. intros. now apply load_unpacked. Qed.
Lemma unpacked_frames c inflate s s' : cfg_ok c -> reads_streams inflate ->
  typed c s -> Forall (fun im => rgba_size im < 2 ^ usize_bits c) (af_images s) -> unpacked s s' ->
  (forall k target sel, render_frame c inflate s k target sel = render_frame c inflate s' k target sel) /\
  (forall hasher k target,
     combined_frame_image c inflate hasher s k target = combined_frame_image c inflate hasher s' k target).
Proof. intros. split; intros; [now apply render_unpacked|now apply combined_unpacked]. Qed.

(** Data that are a stream, with nothing behind it. *)
Lemma whole_stream data w n : is_bytes data -> 0 <= n -> inflate_zlib data n = (ZStreamEnd, w) ->
  fst (inflate_zlib (removelast data) n) <> ZStreamEnd -> zlib_stream data w.
Proof.
  intros Hb Hn E N. destruct (inflate_sound data n w Hb Hn E) as (Hl & stream & rest & -> & Hs).
  destruct rest as [|x rest]; [now rewrite app_nil_r|]. exfalso. apply N.
  rewrite removelast_app by discriminate. now rewrite (inflate_complete stream w _ n Hs Hl).
Qed.
