(** Damaged compressed images. *)
From Verif.Model Require Import Loader Inflate.
From Verif.Spec Require Import Bytes ImageSpec Zlib.
From Verif.Proofs Require Import ParseLib ImageFacts ImageProps InflateFacts BinaryFinal.
From Verif.Tests Require Import Configs Build.

Section Loaded.
Context (c : cfg) (i : bytes) (s : ase_file).
Context (Hc : cfg_ok c) (Hi : is_bytes i) (Ha : addressable c i) (Hload : load c i = Ok s).
Context (j : nat) (im : image) (target : bytes).
Context (Hj : nth_error (af_images s) j = Some im) (Hr : sizes_fit c im) (Hta : addressable c target).
Context (Hlen : rgba_size im <= zlen target).
Context (bs : list bytes) (v : Z) (rest : bytes).
Context (Hz : im_compressed im = true) (Hd : im_data im = stored_stream bs v rest).
Context (Hs : storable bs) (Hv : 0 <= v < 2 ^ 32).
Let d := h_color_depth (f_header (af_file s)).
Context (Hdepth : forall k, d <> DUnknown k).

Definition intact : bool := (v =? adler (concat bs)) && (zlen (concat bs) <=? pixel_bytes d im).

Lemma inflated n : 0 <= n -> n = pixel_bytes d im ->
  exists w, inflate_zlib (im_data im) n = (if intact then ZStreamEnd else if n <? zlen (concat bs) then ZBufError else ZError, w) /\
    (intact = true -> w = concat bs).
Proof.
  intros Hn En. rewrite Hd. unfold stored_stream. rewrite inflate_stored by assumption. unfold intact. rewrite <- En.
  destruct (Z.ltb_spec n (zlen (concat bs))) as [H|H].
  - replace (zlen (concat bs) <=? n) with false by lia. rewrite andb_false_r. eexists. split; [reflexivity|discriminate].
  - replace (zlen (concat bs) <=? n) with true by lia. rewrite andb_true_r. destruct (v =? _); eexists; split; reflexivity || auto.
Qed.

Lemma stored_outcome : if intact
  then exists t, load_image c inflate_zlib s (Z.of_nat j) target = Ok t
  else exists t, load_image c inflate_zlib s (Z.of_nat j) target = Err (DecompressError, t).
Proof.
  destruct (image_facts c i s Hc Hi Ha Hload im (nth_error_In _ _ Hj)) as (H1 & H2 & _).
  set (old := firstn (Z.to_nat (rgba_size im)) target).
  assert (Ho : zlen old = rgba_size im) by (apply (area_addressable c i s Hc Hi Ha Hload j im target Hj Hta Hlen)).
  assert (Hp : 0 <= pixel_bytes d im) by (unfold pixel_bytes; destruct d; nia).
  destruct (inflated _ Hp eq_refl) as (w & Ew & Hw).
  destruct intact eqn:EI.
  - specialize (Hw eq_refl).
    assert (Hfit : zlen w <= pixel_bytes d im) by (subst w; unfold intact in EI; lia).
    assert (G : forall old', zlen old' = pixel_bytes d im -> stored inflate_zlib im old' (w ++ skipn (length w) old')).
    { intros old' E. unfold stored. rewrite Hz, E. eauto. }
    assert (GL : forall old' : bytes, zlen old' = pixel_bytes d im -> zlen (w ++ skipn (length w) old') = pixel_bytes d im).
    { intros old' E. rewrite zlen_app. unfold zlen in *. rewrite skipn_length. lia. }
    cut (exists rgba, decoded inflate_zlib (af_file s) im old rgba).
    { intros (rgba & Hrgba). eexists. apply (load_image_ok c i s Hc Hi Ha Hload _ inflate_zlib_ok j im target Hj Hr Hta).
      split; [exact Hlen|]. exists rgba. split; [exact Hrgba|reflexivity]. }
    pose proof (palette_present c i s Hc Hi Ha Hload) as HP.
    unfold decoded. fold d in HP |- *. unfold pixel_bytes in *. unfold rgba_size in *. destruct d as [| | |k] eqn:Ed.
    4: now destruct (Hdepth k).
    all: cbn match in *.
    + exists (w ++ skipn (length w) old). split; [apply G; lia|]. rewrite GL; lia.
    + eexists. eexists. split; [apply G; rewrite zlen_repeat; nia|]. split; [|reflexivity]. rewrite GL; rewrite ?zlen_repeat; nia.
    + destruct (HP eq_refl) as (pal & Hpal). eexists. eexists. exists pal. split; [apply G; rewrite zlen_repeat; nia|].
      split; [exact Hpal|]. split; [|reflexivity]. rewrite GL; rewrite ?zlen_repeat; nia.
  - rewrite (load_image_unfold c i s Hc Hi Ha Hload inflate_zlib j im target Hj Hr).
    replace (zlen target <? rgba_size im) with false by lia. fold old.
    cut (exists t, decode_image c inflate_zlib (af_file s) im old = Err (DecompressError, t)).
    { intros (t & ->). cbn [with_tail]. eauto. }
    assert (G : forall old' : bytes, zlen old' = pixel_bytes d im ->
      exists t, decompress inflate_zlib (im_data im) old' = Err (DecompressError, t)).
    { intros old' E. unfold decompress. rewrite E, Ew. destruct (_ <? _); eauto. }
    destruct (usize_pos c Hc) as [_ HU]. unfold addressable in Hta.
    unfold decode_image. rewrite Hz. fold d. unfold pixel_bytes, rgba_size in *. destruct d as [| | |k] eqn:Ed.
    4: now destruct (Hdepth k).
    all: cbn match in *.
    + apply G. lia.
    + rewrite usizec_id by nia. cbn [bind]. rewrite usizec_id by nia. cbn [bind]. unfold vec_zeroed.
      replace (_ <? _) with true by nia. cbn [bind].
      destruct (G (repeat 0 (Z.to_nat (im_width im * im_height im * 2)))) as (t & ->); [rewrite zlen_repeat; nia|].
      cbn. eauto.
    + rewrite usizec_id by nia. cbn [bind]. unfold vec_zeroed.
      replace (_ <? _) with true by nia. cbn [bind].
      destruct (G (repeat 0 (Z.to_nat (im_width im * im_height im)))) as (t & ->); [rewrite zlen_repeat; nia|].
      cbn. eauto.
Qed.
End Loaded.

Lemma short_stream c : cfg_ok c ->
  exists i s, is_bytes i /\ addressable c i /\ load c i = Ok s /\ api_image_count s = 1 /\
    forall target, zlen target = 4 -> load_image c inflate_zlib s 0 target = Ok target.
Proof. intro Hc. apply stale_pixels; [exact Hc|]. vm_compute. reflexivity. Qed.

Lemma damaged c i s j im target bs v rest : cfg_ok c -> is_bytes i -> addressable c i -> load c i = Ok s ->
  nth_error (af_images s) j = Some im -> sizes_fit c im -> addressable c target -> rgba_size im <= zlen target ->
  im_compressed im = true -> im_data im = stored_stream bs v rest -> storable bs -> 0 <= v < 2 ^ 32 ->
  (forall k, h_color_depth (f_header (af_file s)) <> DUnknown k) ->
  (v <> adler (concat bs) \/ pixel_bytes (h_color_depth (f_header (af_file s))) im < zlen (concat bs)) ->
  exists t, load_image c inflate_zlib s (Z.of_nat j) target = Err (DecompressError, t).
Proof.
  intros Hc Hi Ha Hload Hj Hr Hta Hlen Hz Hd Hs Hv Hk H.
  pose proof (stored_outcome c i s Hc Hi Ha Hload j im target Hj Hr Hta Hlen bs v rest Hz Hd Hs Hv Hk) as G.
  replace (intact s im bs v) with false in G; [exact G|]. unfold intact. lia.
Qed.
Lemma undamaged c i s j im target bs v rest : cfg_ok c -> is_bytes i -> addressable c i -> load c i = Ok s ->
  nth_error (af_images s) j = Some im -> sizes_fit c im -> addressable c target -> rgba_size im <= zlen target ->
  im_compressed im = true -> im_data im = stored_stream bs v rest -> storable bs -> 0 <= v < 2 ^ 32 ->
  (forall k, h_color_depth (f_header (af_file s)) <> DUnknown k) ->
  v = adler (concat bs) -> zlen (concat bs) <= pixel_bytes (h_color_depth (f_header (af_file s))) im ->
  exists t, load_image c inflate_zlib s (Z.of_nat j) target = Ok t.
Proof.
  intros Hc Hi Ha Hload Hj Hr Hta Hlen Hz Hd Hs Hv Hk H1 H2.
  pose proof (stored_outcome c i s Hc Hi Ha Hload j im target Hj Hr Hta Hlen bs v rest Hz Hd Hs Hv Hk) as G.
  replace (intact s im bs v) with true in G; [exact G|]. unfold intact. lia.
Qed.
Lemma zlib_contract : inflate_ok inflate_zlib /\ reads_stored inflate_zlib.
Proof. split; [exact inflate_zlib_ok|exact inflate_reads_stored]. Qed.
