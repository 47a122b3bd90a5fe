(** [load_image] decodes what Spec/ImageSpec.v says. *)
From Verif.Model Require Import Loader.
From Verif.Spec Require Import Bytes Format FileSpec LoaderSpec Slices ImageSpec.
From Verif.Proofs Require Import ParseLib RawFacts FileFacts PaletteFacts FileProps LoaderFacts LoaderProps FileFinal BinaryFinal.
From Verif.Tests Require Import Configs Build.

Lemma usizec_id {E} c z : 0 <= z < 2 ^ usize_bits c -> @usizec E c z = Ok z.
Proof. intro H. unfold usizec, checked. replace ((0 <=? z) && (z <? 0 + 2 ^ usize_bits c)) with true by lia. reflexivity. Qed.

Lemma usize_pos c : cfg_ok c -> 2 ^ 32 <= 2 ^ usize_bits c /\ 2 ^ usize_bits c = 2 * 2 ^ (usize_bits c - 1).
Proof. intros [-> | ->]; split; cbn; lia. Qed.

Lemma zlen_app {A} (a b : list A) : zlen (a ++ b) = zlen a + zlen b.
Proof. unfold zlen. rewrite app_length. lia. Qed.
Lemma zlen_cons {A} (x : A) l : zlen (x :: l) = 1 + zlen l.
Proof. unfold zlen. cbn [length]. lia. Qed.
Lemma zlen_repeat {A} (x : A) n : zlen (repeat x n) = Z.of_nat n.
Proof. unfold zlen. now rewrite repeat_length. Qed.
Lemma zlen_firstn {A} (l : list A) n : 0 <= n <= zlen l -> zlen (firstn (Z.to_nat n) l) = n.
Proof. unfold zlen. intro H. rewrite firstn_length. lia. Qed.

(** ** Writing pixels one after the other *)
Lemma set_index_at {E A} (a : list A) x y b : @set_index E A (a ++ x :: b) (zlen a) y = Ok (a ++ y :: b).
Proof.
  unfold set_index. rewrite zlen_app, zlen_cons. pose proof (zlen_nonneg a). pose proof (zlen_nonneg b).
  replace ((0 <=? zlen a) && (zlen a <? zlen a + (1 + zlen b))) with true by lia.
  f_equal. unfold zlen. rewrite Nat2Z.id. clear. induction a; cbn; [reflexivity|]. now f_equal.
Qed.

Lemma set4_at {E} (a : bytes) w x y z b k v0 v1 v2 v3 : k = zlen a ->
  @set4 E (a ++ w :: x :: y :: z :: b) k v0 v1 v2 v3 = Ok (a ++ v0 :: v1 :: v2 :: v3 :: b).
Proof.
  intros ->. unfold set4. rewrite set_index_at. cbn [bind].
  replace (a ++ v0 :: x :: y :: z :: b) with ((a ++ [v0]) ++ x :: y :: z :: b) by now rewrite <- app_assoc.
  replace (zlen a + 1) with (zlen (a ++ [v0])) by now rewrite zlen_app. rewrite set_index_at. cbn [bind].
  replace ((a ++ [v0]) ++ v1 :: y :: z :: b) with ((a ++ [v0; v1]) ++ y :: z :: b) by now rewrite <- !app_assoc.
  replace (zlen a + 2) with (zlen (a ++ [v0; v1])) by now rewrite zlen_app. rewrite set_index_at. cbn [bind].
  replace ((a ++ [v0; v1]) ++ v2 :: z :: b) with ((a ++ [v0; v1; v2]) ++ z :: b) by now rewrite <- !app_assoc.
  replace (zlen a + 3) with (zlen (a ++ [v0; v1; v2])) by now rewrite zlen_app. rewrite set_index_at.
  now rewrite <- app_assoc.
Qed.

Lemma four (l : bytes) n : zlen l = 4 * Z.of_nat (S n) ->
  exists w x y z l', l = w :: x :: y :: z :: l' /\ zlen l' = 4 * Z.of_nat n.
Proof.
  unfold zlen. destruct l as [|w [|x [|y [|z l]]]]; cbn [length]; intro H; try lia.
  exists w, x, y, z, l. split; [reflexivity|lia].
Qed.

Lemma even_pairs (l : bytes) n : zlen l = 2 * Z.of_nat (S n) -> exists v a l', l = v :: a :: l' /\ zlen l' = 2 * Z.of_nat n.
Proof. unfold zlen. destruct l as [|v [|a l]]; cbn [length]; intro H; try lia. exists v, a, l. split; [reflexivity|lia]. Qed.

Lemma gray_loop n : forall (src don rest : bytes) k, zlen src = 2 * Z.of_nat n -> zlen rest = 4 * Z.of_nat n -> zlen don = k * 4 ->
  @fold_out (load_image_error * bytes) _ _ (fun target '(i, ch) =>
    let* v := get_index ch 0 in
    let* w := get_index ch 1 in
    set4 target (i * 4) v v v w) (numbered k (chunks2 src)) (don ++ rest) = Ok (don ++ gray_rgba src).
Proof.
  induction n as [|n IH]; intros src don rest k Hs Hr Hd.
  - destruct src; [|rewrite zlen_cons in Hs; pose proof (zlen_nonneg src); lia].
    destruct rest; [reflexivity|rewrite zlen_cons in Hr; pose proof (zlen_nonneg rest); lia].
  - apply even_pairs in Hs as (v & a & src' & -> & Hs). apply four in Hr as (w & x & y & z & rest' & -> & Hr).
    cbn [chunks2 numbered fold_out].
    change (get_index [v; a] 0) with (@Ok (load_image_error * bytes) Z v).
    change (get_index [v; a] 1) with (@Ok (load_image_error * bytes) Z a). cbn [bind].
    rewrite set4_at by (now symmetry). cbn [bind gray_rgba].
    replace (don ++ v :: v :: v :: a :: rest') with ((don ++ [v; v; v; a]) ++ rest') by now rewrite <- app_assoc.
    rewrite IH; [now rewrite <- app_assoc|exact Hs|exact Hr|]. rewrite zlen_app, Hd. unfold zlen. cbn. lia.
Qed.

Lemma index_loop pal (src : bytes) : zlen pal = 256 -> is_bytes src -> forall don rest k,
  zlen rest = 4 * zlen src -> zlen don = k * 4 ->
  @fold_out (load_image_error * bytes) _ _ (fun target '(i, px) =>
    let* color := get_index pal px in
    set4 target (i * 4) (red color) (green color) (blue color) (alpha color)) (numbered k src) (don ++ rest)
  = Ok (don ++ index_rgba pal src).
Proof.
  intros Hp Hb. induction Hb as [|p src Hpx Hb IH]; intros don rest k Hr Hd.
  - destruct rest; [reflexivity|]. rewrite zlen_cons in Hr. pose proof (zlen_nonneg rest). change (zlen (@nil Z)) with 0 in Hr. lia.
  - rewrite zlen_cons in Hr.
    assert (Hr' : zlen rest = 4 * Z.of_nat (S (length src))) by (unfold zlen in *; lia).
    apply four in Hr' as (w & x & y & z & rest' & -> & Hr').
    cbn [numbered fold_out]. 
    assert (Hn : nth_error pal (Z.to_nat p) = Some (nth (Z.to_nat p) pal black)).
    { apply nth_error_nth'. unfold zlen in Hp. unfold is_byte in Hpx. lia. }
    rewrite (get_index_ok pal p _ ltac:(unfold is_byte in Hpx; lia) Hn). cbn [bind].
    rewrite set4_at by (now symmetry). cbn [bind index_rgba flat_map app].
    set (q := nth (Z.to_nat p) pal black).
    replace (don ++ red q :: green q :: blue q :: alpha q :: rest')
      with ((don ++ [red q; green q; blue q; alpha q]) ++ rest') by now rewrite <- app_assoc.
    rewrite IH; [now rewrite <- app_assoc|exact Hr'|]. rewrite zlen_app, Hd. unfold zlen. cbn. lia.
Qed.

Lemma gray_ok c src target n : cfg_ok c -> zlen src * 2 < 2 ^ usize_bits c -> zlen target = 4 * Z.of_nat n ->
  grayscale_to_rgba c src target =
    if zlen src =? 2 * Z.of_nat n then Ok (gray_rgba src) else Err (InvalidImageData, target).
Proof.
  intros Hc Hs Ht. unfold grayscale_to_rgba. pose proof (zlen_nonneg src). rewrite usizec_id by lia. cbn [bind].
  rewrite Ht. destruct (Z.eqb_spec (4 * Z.of_nat n) (zlen src * 2)), (Z.eqb_spec (zlen src) (2 * Z.of_nat n)); try lia; cbn [negb]; [|reflexivity].
  rewrite numbered_enumerate. now apply (gray_loop n src [] target 0).
Qed.

Lemma index_ok c pal src target n : cfg_ok c -> zlen pal = 256 -> is_bytes src -> zlen src * 4 < 2 ^ usize_bits c ->
  zlen target = 4 * n ->
  indexed_to_rgba c src pal target =
    if zlen src =? n then Ok (index_rgba pal src) else Err (InvalidImageData, target).
Proof.
  intros Hc Hp Hb Hs Ht. unfold indexed_to_rgba. pose proof (zlen_nonneg src). rewrite usizec_id by lia. cbn [bind].
  rewrite Ht. destruct (Z.eqb_spec (4 * n) (zlen src * 4)), (Z.eqb_spec (zlen src) n); try lia; cbn [negb]; [|reflexivity].
  rewrite numbered_enumerate. apply (index_loop pal src Hp Hb [] target 0); [lia|reflexivity].
Qed.

(** ** One image *)
Lemma inflated_length inflate data old st w : inflate_ok inflate -> inflate data (zlen old) = (st, w) ->
  zlen (w ++ skipn (length w) old) = zlen old.
Proof.
  intros Hi E. destruct (Hi data (zlen old) (zlen_nonneg old)) as [H _]. rewrite E in H. cbn [snd] in H.
  rewrite zlen_app. unfold zlen in *. rewrite skipn_length. lia.
Qed.
Lemma inflated_bytes inflate data old st w : inflate_ok inflate -> inflate data (zlen old) = (st, w) -> is_bytes old ->
  is_bytes (w ++ skipn (length w) old).
Proof.
  intros Hi E Ho. destruct (Hi data (zlen old) (zlen_nonneg old)) as [_ H]. rewrite E in H. cbn [snd] in H.
  apply Forall_app. split; [exact H|]. rewrite <- (firstn_skipn (length w) old) in Ho. now apply Forall_app in Ho.
Qed.
Lemma bytes_zero n : is_bytes (repeat 0 n).
Proof. apply Forall_forall. intros x Hx. apply repeat_spec in Hx. subst. unfold is_byte. lia. Qed.

Section Image.
Context (c : cfg) (inflate : inflater) (f : file) (im : image) (target : bytes).
Context (Hc : cfg_ok c) (Hinf : inflate_ok inflate)
        (Hw : 0 <= im_width im < 65536) (Hh : 0 <= im_height im < 65536)
        (Hdata : is_bytes (im_data im)) (Hlen : zlen (im_data im) * 4 < 2 ^ usize_bits c)
        (Hpal : forall p, f_palette f = Some p -> zlen p = 256)
        (Ht : zlen target = rgba_size im) (Ha : addressable c target).

Let area := im_width im * im_height im.
Lemma area_nonneg : 0 <= area.
Proof. unfold area. nia. Qed.
Lemma target_area : zlen target = 4 * Z.of_nat (Z.to_nat area).
Proof. pose proof area_nonneg. rewrite Ht. unfold rgba_size. fold area. lia. Qed.
Lemma area_fits : 4 * area < 2 ^ (usize_bits c - 1) /\ 2 ^ usize_bits c = 2 * 2 ^ (usize_bits c - 1).
Proof. destruct (usize_pos c Hc) as [_ H]. split; [|exact H]. unfold addressable in Ha. rewrite Ht in Ha. unfold rgba_size in Ha. fold area in Ha. lia. Qed.

Lemma vec_ok {E} n : 0 <= n <= 4 * area -> @vec_zeroed E c n = Ok (repeat 0 (Z.to_nat n)).
Proof. intro H. unfold vec_zeroed. destruct area_fits. replace (n <? _) with true by lia. reflexivity. Qed.

Lemma decode_outcome : match decode_image c inflate f im target with
  | Ok r => decoded inflate f im target r
  | Err (e, t) => zlen t = zlen target /\ forall r, ~ decoded inflate f im target r
  | Panic q => q = PCopyLen /\ h_color_depth (f_header f) = Rgba /\ im_compressed im = false /\
      zlen (im_data im) <> rgba_size im
  end.
Proof.
  destruct area_fits as [HA HB]. pose proof area_nonneg as H0. pose proof target_area as HT.
  pose proof (zlen_nonneg (im_data im)) as HD.
  unfold decode_image, decoded, stored. fold area.
  assert (Hz : forall k, zlen (repeat 0 k) = Z.of_nat k) by (intro; apply zlen_repeat).
  destruct (h_color_depth (f_header f)) eqn:Ed.
  4: { split; [reflexivity|]. intros r []. }
  all: destruct (im_compressed im) eqn:Ez.
  - (* compressed RGBA, indexed etc. follow the order of the constructors *)
    unfold decompress. destruct (inflate (im_data im) (zlen target)) as [st w] eqn:E.
    pose proof (inflated_length _ _ _ _ _ Hinf E) as HL.
    destruct st; try (split; [exact HL|]; intros r [(w' & E' & _) _]; discriminate).
    split; [eauto|]. now rewrite HL.
  - destruct (Z.eqb_spec (zlen target) (zlen (im_data im))) as [He|He].
    + split; [reflexivity|]. now rewrite <- He.
    + repeat split. rewrite <- Ht. auto.
  - rewrite usizec_id by lia. cbn [bind]. rewrite usizec_id by lia. cbn [bind]. rewrite vec_ok by lia. cbn [bind].
    replace (Z.to_nat (area * 2)) with (2 * Z.to_nat area)%nat by lia. set (old := repeat 0 (2 * Z.to_nat area)).
    unfold decompress. destruct (inflate (im_data im) (zlen old)) as [st w] eqn:E.
    pose proof (inflated_length _ _ _ _ _ Hinf E) as HL.
    destruct st; cbn [local_buf map_err bind]; try (split; [reflexivity|]; intros r (px & (w' & E' & _) & _); discriminate).
    assert (HL2 : zlen (w ++ skipn (length w) old) = 2 * Z.of_nat (Z.to_nat area)) by (rewrite HL; unfold old; rewrite Hz; lia).
    rewrite (gray_ok c _ target (Z.to_nat area)) by (try assumption; lia). rewrite HL2, Z.eqb_refl.
    exists (w ++ skipn (length w) old). split; [eauto|]. split; [lia|reflexivity].
  - rewrite (gray_ok c _ target (Z.to_nat area)) by (try assumption; lia).
    destruct (Z.eqb_spec (zlen (im_data im)) (2 * Z.of_nat (Z.to_nat area))) as [He|He].
    + exists (im_data im). split; [reflexivity|]. split; [lia|reflexivity].
    + split; [reflexivity|]. intros r (px & -> & Hp & _). lia.
  - rewrite usizec_id by lia. cbn [bind]. rewrite vec_ok by lia. cbn [bind]. set (old := repeat 0 (Z.to_nat area)).
    unfold decompress. destruct (inflate (im_data im) (zlen old)) as [st w] eqn:E.
    pose proof (inflated_length _ _ _ _ _ Hinf E) as HL. pose proof (inflated_bytes _ _ _ _ _ Hinf E (bytes_zero _)) as HB'.
    destruct st; cbn [local_buf map_err bind]; try (split; [reflexivity|]; intros r (px & pal & (w' & E' & _) & _); discriminate).
    destruct (f_palette f) as [pal|] eqn:Ep; cbn [need_palette bind];
      [|split; [reflexivity|]; intros r (px & pal & _ & E' & _); discriminate].
    assert (HL2 : zlen (w ++ skipn (length w) old) = area) by (rewrite HL; unfold old; rewrite Hz; lia).
    rewrite (index_ok c pal _ target area) by (try assumption; auto; lia). rewrite HL2, Z.eqb_refl.
    exists (w ++ skipn (length w) old), pal. split; [eauto|]. auto.
  - destruct (f_palette f) as [pal|] eqn:Ep; cbn [need_palette bind];
      [|split; [reflexivity|]; intros r (px & pal & _ & E' & _); discriminate].
    rewrite (index_ok c pal _ target area) by (try assumption; auto; lia).
    destruct (Z.eqb_spec (zlen (im_data im)) area) as [He|He].
    + exists (im_data im), pal. auto.
    + split; [reflexivity|]. intros r (px & pal' & -> & _ & Hp & _). lia.
Qed.

(** There is one result. *)
Lemma decoded_unique r r' : decoded inflate f im target r -> decoded inflate f im target r' -> r = r'.
Proof.
  assert (S : forall old a b, stored inflate im old a -> stored inflate im old b -> a = b).
  { unfold stored. destruct (im_compressed im); [|congruence]. intros old a b (w & E & ->) (w' & E' & ->). congruence. }
  unfold decoded. destruct (h_color_depth (f_header f)).
  - intros [H _] [H' _]. eapply S; eassumption.
  - intros (px & H & _ & ->) (px' & H' & _ & ->). now rewrite (S _ _ _ H H').
  - intros (px & pal & H & E & _ & ->) (px' & pal' & H' & E' & _ & ->). rewrite (S _ _ _ H H'). congruence.
  - contradiction.
Qed.

Lemma gray_length n : forall l, zlen l = 2 * Z.of_nat n -> zlen (gray_rgba l) = 4 * Z.of_nat n.
Proof.
  clear. induction n as [|n IH]; intros l H.
  - destruct l; [reflexivity|]. rewrite zlen_cons in H. pose proof (zlen_nonneg l). lia.
  - apply even_pairs in H as (v & a & l' & -> & H). cbn [gray_rgba]. rewrite !zlen_cons, (IH l' H). lia.
Qed.
Lemma index_length pal l : zlen (index_rgba pal l) = 4 * zlen l.
Proof. clear. induction l as [|x l IH]; [reflexivity|]. cbn [index_rgba flat_map]. rewrite zlen_app, zlen_cons. unfold index_rgba in IH. rewrite IH. unfold zlen. cbn [length]. lia. Qed.

Lemma decoded_length r : decoded inflate f im target r -> zlen r = rgba_size im.
Proof.
  pose proof area_nonneg. unfold decoded, rgba_size. fold area. destruct (h_color_depth (f_header f)).
  - tauto.
  - intros (px & _ & H' & ->). rewrite (gray_length (Z.to_nat area)); lia.
  - intros (px & pal & _ & _ & H' & ->). rewrite index_length. lia.
  - contradiction.
Qed.
End Image.

(** ** The buffer, whatever the sizes *)
Lemma set_index_length {E A} (l : list A) k x l' : @set_index E A l k x = Ok l' -> zlen l' = zlen l.
Proof.
  unfold set_index. destruct (_ && _); [|discriminate]. intros [= <-]. unfold zlen. f_equal.
  generalize (Z.to_nat k). clear. induction l as [|y l IH]; intros [|n]; cbn; auto.
Qed.
Lemma set_index_err {E A} (l : list A) k x e : @set_index E A l k x <> Err e.
Proof. unfold set_index. destruct (_ && _); discriminate. Qed.
Lemma get_index_err {E A} (l : list A) k e : @get_index E A l k <> Err e.
Proof. unfold get_index. destruct (0 <=? k); [|discriminate]. destruct (nth_error _ _); discriminate. Qed.

(** A buffer function that keeps the length, also when it fails. *)
Definition keeps (n : Z) (m : buf_out) : Prop :=
  match m with Ok t | Err (_, t) => zlen t = n | Panic _ => True end.

Lemma keeps_bind n m k : keeps n m -> (forall t, zlen t = n -> keeps n (k t)) -> keeps n (bind m k).
Proof. destruct m as [t|[e t]|p]; cbn; auto. Qed.
Lemma keeps_pure {A} n (m : out (load_image_error * bytes) A) k : (forall e, m <> Err e) ->
  (forall a, m = Ok a -> keeps n (k a)) -> keeps n (bind m k).
Proof. destruct m as [a|e|p]; cbn; auto. intros H _. now destruct (H e). Qed.
Lemma keeps_set n (t : bytes) k x f : zlen t = n -> (forall t', zlen t' = n -> keeps n (f t')) ->
  keeps n (bind (set_index t k x) f).
Proof. intros Ht Hf. apply keeps_pure; [intro; apply set_index_err|]. intros a Ha. apply Hf. apply set_index_length in Ha. congruence. Qed.
Lemma keeps_set4 n (t : bytes) k a b x y : zlen t = n -> keeps n (set4 t k a b x y).
Proof.
  intro Ht. unfold set4. apply keeps_set; [exact Ht|]. intros t1 H1. apply keeps_set; [exact H1|]. intros t2 H2.
  apply keeps_set; [exact H2|]. intros t3 H3. destruct (set_index t3 (k + 3) y) eqn:E; cbn; auto.
  - apply set_index_length in E. congruence.
  - now apply set_index_err in E.
Qed.
Lemma keeps_fold {B} n (f : bytes -> B -> buf_out) l : (forall t b, zlen t = n -> keeps n (f t b)) ->
  forall t, zlen t = n -> keeps n (fold_out f l t).
Proof. intro Hf. induction l as [|b l IH]; intros t Ht; cbn [fold_out]; [exact Ht|]. apply keeps_bind; auto. Qed.
Lemma usizec_err {E} c z (e : E) : usizec c z <> Err e.
Proof. unfold usizec, checked. destruct (_ && _); [discriminate|]. destruct (debug c); discriminate. Qed.

Lemma keeps_gray c src t : keeps (zlen t) (grayscale_to_rgba c src t).
Proof.
  unfold grayscale_to_rgba. apply keeps_pure; [intro; apply usizec_err|]. intros n _.
  destruct (negb _); [reflexivity|]. apply keeps_fold; [|reflexivity]. intros t' [i ch] Ht.
  apply keeps_pure; [intro; apply get_index_err|]. intros v _. apply keeps_pure; [intro; apply get_index_err|]. intros w _.
  now apply keeps_set4.
Qed.
Lemma keeps_index c src pal t : keeps (zlen t) (indexed_to_rgba c src pal t).
Proof.
  unfold indexed_to_rgba. apply keeps_pure; [intro; apply usizec_err|]. intros n _.
  destruct (negb _); [reflexivity|]. apply keeps_fold; [|reflexivity]. intros t' [i p] Ht.
  apply keeps_pure; [intro; apply get_index_err|]. intros v _. now apply keeps_set4.
Qed.
Lemma keeps_decompress inflate data t : inflate_ok inflate -> keeps (zlen t) (decompress inflate data t).
Proof.
  intro Hi. unfold decompress. destruct (inflate data (zlen t)) as [st w] eqn:E.
  pose proof (inflated_length _ _ _ _ _ Hi E). destruct st; assumption.
Qed.
Lemma keeps_local {A} n t (m : out (load_image_error * bytes) A) k : zlen t = n ->
  (forall a, keeps n (k a)) -> keeps n (bind (local_buf t m) k).
Proof. intros Ht Hk. destruct m as [a|[e b]|p]; cbn; auto. Qed.
Lemma vec_err {E} c n (e : E) : vec_zeroed c n <> Err e.
Proof. unfold vec_zeroed. destruct (_ <? _); discriminate. Qed.

Lemma keeps_palette n t p k : zlen t = n -> (forall a, keeps n (k a)) -> keeps n (bind (need_palette p t) k).
Proof. intros Ht Hk. destruct p; cbn; auto. Qed.

Lemma keeps_decode c inflate f im t : inflate_ok inflate -> keeps (zlen t) (decode_image c inflate f im t).
Proof.
  intro Hi. unfold decode_image. destruct (h_color_depth (f_header f)), (im_compressed im); try reflexivity.
  - now apply keeps_decompress.
  - destruct (Z.eqb_spec (zlen t) (zlen (im_data im))); [|exact I]. symmetry. assumption.
  - do 2 (apply keeps_pure; [intro; apply usizec_err|]; intros ? _).
    apply keeps_pure; [intro; apply vec_err|]. intros b _. apply keeps_local; [reflexivity|]. intro. apply keeps_gray.
  - apply keeps_gray.
  - apply keeps_pure; [intro; apply usizec_err|]; intros ? _.
    apply keeps_pure; [intro; apply vec_err|]. intros b _. apply keeps_local; [reflexivity|]. intro.
    apply keeps_palette; [reflexivity|]. intro. apply keeps_index.
  - apply keeps_palette; [reflexivity|]. intro. apply keeps_index.
Qed.

(** Any machine integer is at most the exact (non-negative) value. *)
Lemma usizec_le {E} c z n : cfg_ok c -> 0 <= z -> @usizec E c z = Ok n -> 0 <= n <= z.
Proof.
  intros Hc Hz. unfold usizec, checked, wrap. destruct (Z.ltb_spec z (0 + 2 ^ usize_bits c)).
  - destruct (0 <=? z); cbn; [intros [= <-]; lia|]. destruct (debug c); [discriminate|]. intros [= <-].
    rewrite Z.sub_0_r, Z.mod_small by lia. lia.
  - rewrite andb_false_r. destruct (debug c); [discriminate|]. intros [= <-]. rewrite Z.sub_0_r.
    assert (0 < 2 ^ usize_bits c) by (destruct Hc as [-> | ->]; reflexivity).
    pose proof (Z.mod_pos_bound z (2 ^ usize_bits c)). pose proof (Z.mod_le z (2 ^ usize_bits c)). lia.
Qed.

Lemma skipn_twice {A} (l : list A) : forall n m, skipn n (skipn m l) = skipn (n + m) l.
Proof.
  induction l as [|x l IH]; intros n m; [now rewrite !skipn_nil|].
  destruct m as [|m]; [now rewrite Nat.add_0_r|]. rewrite Nat.add_succ_r. cbn [skipn]. apply IH.
Qed.
Lemma skipn_more {A} (a b : list A) n m : skipn n a = skipn n b -> (n <= m)%nat -> skipn m a = skipn m b.
Proof.
  intros H Hm. replace m with (m - n + n)%nat by lia. rewrite <- !skipn_twice. now rewrite H.
Qed.

Lemma decode_not_too_small c inflate f im u t : decode_image c inflate f im u <> Err (TargetBufferTooSmall, t).
Proof.
  unfold decode_image.
  assert (FO : forall B (g : bytes -> B -> buf_out) l x e, (forall a b e, g a b <> Err e) -> fold_out g l x <> Err e).
  { clear. intros B g l. induction l as [|b l IH]; cbn; [discriminate|]. intros x e Hg.
    destruct (g x b) eqn:E; cbn; [now apply IH|now apply Hg in E|discriminate]. }
  assert (S4 : forall t k a b x y e, @set4 (load_image_error * bytes) t k a b x y <> Err e).
  { clear. intros. unfold set4. destruct (set_index t k a) eqn:E1; cbn [bind]; [|now apply set_index_err in E1|discriminate].
    destruct (set_index _ (k + 1) b) eqn:E2; cbn [bind]; [|now apply set_index_err in E2|discriminate].
    destruct (set_index _ (k + 2) x) eqn:E3; cbn [bind]; [|now apply set_index_err in E3|discriminate].
    apply set_index_err. }
  assert (GR : forall src u t, grayscale_to_rgba c src u <> Err (TargetBufferTooSmall, t)).
  { intros src u0 t0. unfold grayscale_to_rgba. destruct (usizec c _) eqn:E1; cbn [bind]; [|now apply usizec_err in E1|discriminate].
    destruct (negb _); [discriminate|]. apply FO. intros a0 [i ch] e0.
    destruct (get_index ch 0) eqn:G0; cbn [bind]; [|now apply get_index_err in G0|discriminate].
    destruct (get_index ch 1) eqn:G1; cbn [bind]; [|now apply get_index_err in G1|discriminate]. apply S4. }
  assert (IR : forall src pal u t, indexed_to_rgba c src pal u <> Err (TargetBufferTooSmall, t)).
  { intros src pal u0 t0. unfold indexed_to_rgba. destruct (usizec c _) eqn:E1; cbn [bind]; [|now apply usizec_err in E1|discriminate].
    destruct (negb _); [discriminate|]. apply FO. intros a0 [i ch] e0.
    destruct (get_index pal ch) eqn:G0; cbn [bind]; [|now apply get_index_err in G0|discriminate]. apply S4. }
  assert (DC : forall d u t, decompress inflate d u <> Err (TargetBufferTooSmall, t)).
  { intros d u0 t0. unfold decompress. destruct (inflate d (zlen u0)) as [[] w]; discriminate. }
  destruct (h_color_depth _), (im_compressed im); try discriminate.
  + apply DC.
  + destruct (_ =? _); discriminate.
  + destruct (usizec c (_ * _)) eqn:U1; cbn [bind]; [|now apply usizec_err in U1|discriminate].
    destruct (usizec c (_ * 2)) eqn:U2; cbn [bind]; [|now apply usizec_err in U2|discriminate].
    destruct (vec_zeroed c _) eqn:U3; cbn [bind]; [|now apply vec_err in U3|discriminate].
    destruct (decompress inflate _ _) as [b|[e b]|p] eqn:U4; cbn; [apply GR| |discriminate].
    intros [= -> _]. now apply DC in U4.
  + apply GR.
  + destruct (usizec c (_ * _)) eqn:U1; cbn [bind]; [|now apply usizec_err in U1|discriminate].
    destruct (vec_zeroed c _) eqn:U3; cbn [bind]; [|now apply vec_err in U3|discriminate].
    destruct (decompress inflate _ _) as [b|[e b]|p] eqn:U4; cbn; [destruct (f_palette _); cbn; [apply IR|discriminate]| |discriminate].
    intros [= -> _]. now apply DC in U4.
  + destruct (f_palette _); cbn; [apply IR|discriminate].
Qed.

Lemma load_image_keeps c inflate s j im target r : cfg_ok c -> inflate_ok inflate ->
  nth_error (af_images s) j = Some im -> 0 <= im_width im -> 0 <= im_height im ->
  load_image c inflate s (Z.of_nat j) target = r ->
  match r with
  | Ok t | Err (_, t) => zlen t = zlen target /\
      skipn (Z.to_nat (rgba_size im)) t = skipn (Z.to_nat (rgba_size im)) target
  | Panic _ => True
  end /\
  (forall t, r = Err (TargetBufferTooSmall, t) -> t = target).
Proof.
  intros Hc Hi Hj Hw Hh <-. unfold load_image.
  rewrite (get_index_ok _ (Z.of_nat j) im) by (rewrite ?Nat2Z.id; (assumption || lia)). cbn [bind].
  destruct (usizec c (im_width im * im_height im)) as [n|e|p] eqn:E1; cbn [bind];
    [|now apply usizec_err in E1|split; [exact I|discriminate]].
  destruct (usizec c (n * 4)) as [ts|e|p] eqn:E2; cbn [bind];
    [|now apply usizec_err in E2|split; [exact I|discriminate]].
  apply usizec_le in E1; [|assumption|nia]. apply usizec_le in E2; [|assumption|nia].
  destruct (Z.ltb_spec (zlen target) ts).
  { split; [split; reflexivity|]. now intros t [= <-]. }
  pose proof (keeps_decode c inflate (af_file s) im (firstn (Z.to_nat ts) target) Hi) as K.
  assert (HL : zlen (firstn (Z.to_nat ts) target) = ts) by (apply zlen_firstn; lia). rewrite HL in K.
  assert (G : forall t, zlen t = ts -> zlen (t ++ skipn (Z.to_nat ts) target) = zlen target /\
     skipn (Z.to_nat (rgba_size im)) (t ++ skipn (Z.to_nat ts) target) = skipn (Z.to_nat (rgba_size im)) target).
  { intros t Hl. split.
    - rewrite zlen_app. unfold zlen in *. rewrite skipn_length. lia.
    - apply (skipn_more _ _ (Z.to_nat ts)); [|unfold rgba_size; lia].
      replace (Z.to_nat ts) with (length t) at 1 by (unfold zlen in Hl; lia).
      now rewrite skipn_app, skipn_all, Nat.sub_diag. }
  destruct (decode_image _ _ _ _ _) as [t|[e t]|p] eqn:ED; cbn [with_tail keeps] in *; [| |split; [exact I|discriminate]].
  - split; [now apply G|discriminate].
  - split; [now apply G|]. intros t' [= -> _]. exfalso.
    now apply decode_not_too_small in ED.
Qed.
