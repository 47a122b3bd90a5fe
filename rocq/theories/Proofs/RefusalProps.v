(** Exactly when [load_image] and [render_frame] refuse. *)
From Verif.Model Require Import Loader.
From Verif.Spec Require Import Bytes ImageSpec BlendSpec RenderSpec Refusals.
From Verif.Proofs Require Import ParseLib BlendFacts BlendProps ImageFacts ImageProps RenderFacts RenderProps CanvasProps ExactProps.
From Verif.Tests Require Import Configs Build.

(** ** Images *)
Section Image.
Context (c : cfg) (inflate : inflater) (f : file) (im : image) (target : bytes).
Context (Hc : cfg_ok c) (Hinf : inflate_ok inflate)
        (Hw : 0 <= im_width im < 65536) (Hh : 0 <= im_height im < 65536)
        (Hdata : is_bytes (im_data im)) (Hlen : zlen (im_data im) * 4 < 2 ^ usize_bits c)
        (Hpal : forall p, f_palette f = Some p -> zlen p = 256)
        (Hhas : h_color_depth (f_header f) = Indexed -> exists p, f_palette f = Some p)
        (Ht : zlen target = rgba_size im) (Ha : addressable c target).

Lemma decode_refused e t : decode_image c inflate f im target = Err (e, t) <-> image_wrong inflate f im target e t.
Proof.
  destruct (area_fits c im target Hc Ht Ha) as [HA HB]. pose proof (area_nonneg c im Hw Hh) as H0.
  pose proof (target_area c im target Hw Hh Ht) as HT. pose proof (zlen_nonneg (im_data im)) as HD.
  set (area := im_width im * im_height im) in *.
  unfold decode_image, image_wrong, unusable, unfinished. fold area.
  assert (Hz : forall k, zlen (repeat 0 k) = Z.of_nat k) by (intro; apply zlen_repeat).
  destruct (h_color_depth (f_header f)) eqn:Ed.
  4: { split; [intros [= <- <-]; auto|intros [-> ->]; reflexivity]. }
  all: destruct (im_compressed im) eqn:Ez.
  - unfold decompress. replace (4 * area) with (zlen target) by lia.
    destruct (inflate (im_data im) (zlen target)) as [st w] eqn:E. split.
    + intro H. destruct st; try discriminate; injection H as <- <-; (split; [reflexivity|]; exists w; split; [|reflexivity];
        split; [reflexivity|]; eexists; split; [reflexivity|discriminate]).
    + intros (-> & w' & (_ & st' & [= <- <-] & Hs) & ->). destruct st; try reflexivity. contradiction.
  - split; [destruct (_ =? _); discriminate|]. intros (_ & w & (H & _) & _). discriminate.
  - rewrite usizec_id by lia. cbn [bind]. rewrite usizec_id by lia. cbn [bind]. rewrite (vec_ok c im target Hc Ht Ha) by lia. cbn [bind].
    set (old := repeat 0 (Z.to_nat (area * 2))). assert (HO : zlen old = 2 * area) by (unfold old; rewrite Hz; lia).
    unfold decompress. rewrite HO. destruct (inflate (im_data im) (2 * area)) as [st w] eqn:E.
    rewrite <- HO in E. pose proof (inflated_length _ _ _ _ _ Hinf E) as HL. split.
    + intro H. assert (N : st <> ZStreamEnd).
      { intros ->. cbn [local_buf map_err bind] in H. rewrite (gray_ok c _ target (Z.to_nat area)) in H by (try assumption; lia).
        rewrite HL, HO, Z2Nat.id, Z.eqb_refl in H by lia. discriminate. }
      destruct st; cbn [local_buf map_err bind] in H; try contradiction; injection H as <- <-;
        (split; [reflexivity|]; left; split; [reflexivity|]; exists w; split; [reflexivity|]; eexists; split; [reflexivity|discriminate]).
    + intros (-> & [(-> & w' & _ & st' & [= <- <-] & Hs)|(_ & H & _)]); [|discriminate].
      destruct st; try reflexivity. contradiction.
  - rewrite (gray_ok c _ target (Z.to_nat area)) by (try assumption; lia). rewrite Z2Nat.id by lia.
    destruct (Z.eqb_spec (zlen (im_data im)) (2 * area)) as [He|He]; split.
    + discriminate.
    + intros (_ & [(_ & w & H & _)|(_ & _ & H)]); [discriminate|contradiction].
    + intros [= <- <-]. auto.
    + intros (-> & [(_ & w & H & _)|(-> & _)]); [discriminate|reflexivity].
  - rewrite usizec_id by lia. cbn [bind]. rewrite (vec_ok c im target Hc Ht Ha) by lia. cbn [bind].
    set (old := repeat 0 (Z.to_nat area)). assert (HO : zlen old = area) by (unfold old; rewrite Hz; lia).
    unfold decompress. rewrite HO. destruct (inflate (im_data im) area) as [st w] eqn:E.
    rewrite <- HO in E. pose proof (inflated_length _ _ _ _ _ Hinf E) as HL. pose proof (inflated_bytes _ _ _ _ _ Hinf E (bytes_zero _)) as HB'.
    destruct (Hhas eq_refl) as [pal Ep]. rewrite Ep. split.
    + intro H. assert (N : st <> ZStreamEnd).
      { intros ->. cbn [local_buf map_err bind need_palette] in H. rewrite (index_ok c pal _ target area) in H by (try assumption; auto; lia).
        rewrite HL, HO, Z.eqb_refl in H. discriminate. }
      destruct st; cbn [local_buf map_err bind] in H; try contradiction; injection H as <- <-;
        (split; [reflexivity|]; left; split; [reflexivity|]; exists w; split; [reflexivity|]; eexists; split; [reflexivity|discriminate]).
    + intros (-> & [(-> & w' & _ & st' & [= <- <-] & Hs)|(_ & H & _)]); [|discriminate].
      destruct st; try reflexivity. contradiction.
  - destruct (Hhas eq_refl) as [pal Ep]. rewrite Ep. cbn [need_palette bind].
    rewrite (index_ok c pal _ target area) by (try assumption; auto; lia).
    destruct (Z.eqb_spec (zlen (im_data im)) area) as [He|He]; split.
    + discriminate.
    + intros (_ & [(_ & w & H & _)|(_ & _ & H)]); [discriminate|contradiction].
    + intros [= <- <-]. auto.
    + intros (-> & [(_ & w & H & _)|(-> & _)]); [discriminate|reflexivity].
Qed.
End Image.

Lemma image_refused c i s : cfg_ok c -> is_bytes i -> addressable c i -> load c i = Ok s ->
  forall inflate, inflate_ok inflate ->
  forall j im target, nth_error (af_images s) j = Some im -> sizes_fit c im -> addressable c target ->
  forall e t, load_image c inflate s (Z.of_nat j) target = Err (e, t) <->
    (zlen target < rgba_size im /\ e = TargetBufferTooSmall /\ t = target) \/
    (rgba_size im <= zlen target /\
     exists left, image_wrong inflate (af_file s) im (firstn (Z.to_nat (rgba_size im)) target) e left /\
       t = left ++ skipn (Z.to_nat (rgba_size im)) target).
Proof.
  intros Hc Hi Ha Hl inflate Hinf j im target Hj Hr Hta e t.
  rewrite (load_image_unfold c i s Hc Hi Ha Hl inflate j im target Hj Hr).
  destruct (Z.ltb_spec (zlen target) (rgba_size im)) as [H|H].
  { split; [intros [= <- <-]; auto|]. intros [(_ & -> & ->)|(H' & _)]; [reflexivity|lia]. }
  destruct (area_addressable c i s Hc Hi Ha Hl j im target Hj Hta H) as [HL HA].
  destruct (image_facts c i s Hc Hi Ha Hl im (nth_error_In _ _ Hj)) as (H1 & H2 & H3 & _). pose proof Hr as [_ H4].
  pose proof (fun e t => decode_refused c inflate (af_file s) im (firstn (Z.to_nat (rgba_size im)) target) Hc Hinf H1 H2 H3 H4
    (palette_size c i s Hc Hi Ha Hl) (palette_present c i s Hc Hi Ha Hl) HL HA e t) as HO.
  split.
  - intro E. right. split; [exact H|].
    destruct (decode_image _ _ _ _ _) as [t'|[e' t']|q]; cbn [with_tail] in E; try discriminate. injection E as <- <-.
    exists t'. split; [now apply HO|reflexivity].
  - intros [(H' & _)|(_ & left & Hw & ->)]; [lia|]. apply HO in Hw. rewrite Hw. reflexivity.
Qed.

(** ** Frames *)
Lemma fold_app {E A B} (f : A -> B -> out E A) a b t : fold_out f (a ++ b) t = bind (fold_out f a t) (fold_out f b).
Proof. revert t. induction a as [|x a IH]; intro t; cbn [app fold_out bind]; [reflexivity|]. destruct (f t x); cbn [bind]; auto. Qed.
Lemma fold_panics {E A B} (f : A -> B -> out E A) q l : forall t, fold_out f l t = Panic q <->
  exists before x after t', l = before ++ x :: after /\ fold_out f before t = Ok t' /\ f t' x = Panic q.
Proof.
  intro t. split.
  - revert t. induction l as [|x l IH]; intros t; cbn [fold_out]; [discriminate|].
    destruct (f t x) as [t1|e|q'] eqn:Ex; cbn [bind]; intro H; [|discriminate|].
    + destruct (IH t1 H) as (before & y & after & t' & -> & H1 & H2). exists (x :: before), y, after, t'.
      split; [reflexivity|]. split; [|exact H2]. cbn [fold_out]. rewrite Ex. exact H1.
    + injection H as ->. exists [], x, l, t. auto.
  - intros (before & x & after & t' & -> & H1 & H2). rewrite fold_app, H1. cbn [bind fold_out]. rewrite H2. reflexivity.
Qed.
Lemma composed_join c inflate s sel x y a b : forall back m p, composed c inflate s sel x y a back m ->
  composed c inflate s sel x y b m p -> composed c inflate s sel x y (a ++ b) back p.
Proof. intros back m p H. revert p. induction H; intros r G; cbn [app]; [exact G|apply composed_skip; auto|eapply composed_draw; eauto]. Qed.

Section Frame.
Context (c : cfg) (i : bytes) (s : ase_file).
Context (Hc : cfg_ok c) (Hi : is_bytes i) (Ha : addressable c i) (Hload : load c i = Ok s).
Context (inflate : inflater) (Hinf : inflate_ok inflate) (Hfit : sprite_fits c s) (sel : layer_selection).

Lemma bad_length_panics cel : cel_ok s cel -> bad_length s cel ->
  load_image c inflate s (fc_image_index cel) (repeat 0 (Z.to_nat (fst (fc_size cel) * snd (fc_size cel) * 4))) = Panic PCopyLen.
Proof.
  intros (H0 & im & Hj & E) (Hd & im' & Hj' & Hz & Hn). assert (im' = im) as -> by congruence. rewrite E. cbn [fst snd].
  pose proof (nth_error_In _ _ Hj) as Him. change (im_width im * im_height im * 4) with (rgba_size im).
  destruct (image_facts c i s Hc Hi Ha Hload im Him) as (H1 & H2 & _). destruct Hfit as [_ HF]. rewrite Forall_forall in HF.
  destruct (HF im Him) as [HF1 HF2]. destruct (usize_pos c Hc) as [_ HU].
  assert (Hs0 : 0 <= rgba_size im) by (unfold rgba_size; nia).
  assert (Hsz : sizes_fit c im) by (split; [lia|exact HF2]).
  set (t := repeat 0 (Z.to_nat (rgba_size im))).
  assert (Ht : zlen t = rgba_size im) by (unfold t; rewrite zlen_repeat; lia).
  assert (Hta : addressable c t) by (unfold addressable; lia).
  pose proof (load_image_panic c i s Hc Hi Ha Hload inflate Hinf _ im t Hj Hsz Hta PCopyLen) as HP.
  rewrite Z2Nat.id in HP by exact H0. apply HP. repeat split; try assumption. lia.
Qed.

(** The cels that can be drawn are those that are. *)
Lemma draws cels : Forall (cel_ok s) cels -> forall t, is_bytes t -> canvas_size s <= zlen t ->
  can_draw c inflate s sel cels t <-> exists t', fold_out (render_cel c inflate s sel) cels t = Ok t'.
Proof.
  intros HF t Hb Ht. pose proof (cels_outcome c i s Hc Hi Ha Hload inflate Hinf Hfit sel cels HF t Hb Ht) as HO.
  pose proof (cels_assert c i s Hc Hi Ha Hload inflate Hinf Hfit sel cels HF t Hb Ht) as HA. split.
  - intros (D & V). destruct (fold_out _ cels t) as [t'|e|q] eqn:E; [eauto|contradiction|]. exfalso.
    destruct HO as (cel & l & Hin & Hdr & G). destruct (D cel l Hin Hdr) as ([image Him] & Hm).
    destruct G as [(_ & Hd1 & im & Hj & Hz & Hn)|[[_ G]|[[_ G]|(-> & _)]]].
    + eapply no_image_raw; eassumption.
    + exact (G _ Him).
    + exact (G Hm).
    + destruct (HA eq_refl) as (x & y & back & Hx & Hy & P & N). destruct (V x y back Hx Hy P) as (p & C). exact (N p C).
  - intros [t' E]. rewrite E in HO. destruct HO as (_ & _ & _ & D & _ & V). split; [exact D|].
    intros x y back Hx Hy P. destruct (V x y Hx Hy) as (back' & p & E1 & _ & C). assert (back' = back) as -> by congruence. eauto.
Qed.

Lemma cel_hindered before t t' cel l q : Forall (cel_ok s) before -> cel_ok s cel -> is_bytes t -> canvas_size s <= zlen t ->
  fold_out (render_cel c inflate s sel) before t = Ok t' -> drawn s sel cel = Some l ->
  render_cel c inflate s sel t' cel = Panic q <-> hindered c inflate s sel t before cel l q.
Proof.
  intros HF Hok Hb Ht E Ed. pose proof (cels_outcome c i s Hc Hi Ha Hload inflate Hinf Hfit sel before HF t Hb Ht) as HO.
  rewrite E in HO. destruct HO as (L' & B' & _ & _ & _ & V').
  assert (Ht' : canvas_size s <= zlen t') by lia.
  pose proof (cel_assert c i s Hc Hi Ha Hload inflate Hinf Hfit sel cel t' Hok B' Ht') as HA.
  pose proof (render_cel_outcome c i s Hc Hi Ha Hload inflate Hinf Hfit sel cel t' Hok B' Ht') as HC.
  pose proof (cel_loaded c i s Hc Hi Ha Hload inflate Hinf Hfit cel Hok) as HL. cbv zeta in HL.
  pose proof (bad_length_panics cel Hok) as HW.
  assert (HM : forall x y back mid, composed c inflate s sel x y before back mid ->
    forall p, composed c inflate s sel x y (before ++ [cel]) back p -> composed c inflate s sel x y [cel] mid p).
  { intros x y back mid H1 p H. apply composed_app in H. destruct H as (m & G1 & G2).
    assert (m = mid) as -> by (eapply composed_unique; eassumption). exact G2. }
  assert (EQ : render_cel c inflate s sel t' cel = _) by (rewrite (render_cel_eq c i s Hc Hi Ha Hload inflate Hfit sel) by exact Hok; rewrite Ed; reflexivity).
  split.
  - intro G. rewrite G in HC. destruct HC as (l' & Hd' & O). assert (l' = l) as -> by congruence.
    rewrite G in EQ. destruct (load_image c inflate s _ _) as [image|e|q'] eqn:EL; cbn [unwrap bind] in EQ.
    + destruct HL as [Him _]. destruct (mode_cases (ly_blend_mode l)) as [Hm|[w Hm]].
      2:{ rewrite Hm, unknown_mode in EQ. cbn [lift bind] in EQ. injection EQ as ->. eapply h_mode; [exact Him|]. rewrite Hm. apply unknown_not_known. }
      destruct O as [(_ & Hd1 & im & Hj & Hz & Hn)|[[_ G']|[[_ G']|(-> & _)]]].
      * exfalso. eapply no_image_raw; eassumption.
      * exfalso. exact (G' _ Him).
      * exfalso. exact (G' Hm).
      * destruct (HA G) as (x & y & mid & Hx & Hy & P & N). destruct (V' x y Hx Hy) as (back & p & E1 & E2 & C).
        assert (p = mid) as -> by congruence. eapply h_pixel; try eassumption. intros r H. exact (N [] r (HM _ _ _ _ C _ H)).
    + injection EQ as ->. apply h_image; [|exact HL]. intro W. specialize (HW W). discriminate.
    + injection EQ as ->. destruct HL as (-> & _ & Hd & im & H). apply h_length. split; [exact Hd|]. exists im. exact H.
  - intro H. destruct H as [W|W N|image Him Hm|image x y back Him Hm Hx Hy P N].
    + rewrite EQ, (HW W). reflexivity.
    + destruct (load_image c inflate s _ _) as [image|e|q'] eqn:EL.
      * exfalso. exact (N _ (proj1 HL)).
      * rewrite EQ. reflexivity.
      * exfalso. apply W. destruct HL as (-> & _ & Hd & im & H). split; [exact Hd|]. exists im. exact H.
    + destruct (load_image c inflate s _ _) as [image'|e|q'] eqn:EL.
      * destruct (mode_cases (ly_blend_mode l)) as [Hm'|[w Hm']]; [contradiction|].
        rewrite EQ. cbn [unwrap bind]. rewrite Hm', unknown_mode. reflexivity.
      * exfalso. exact (HL _ Him).
      * exfalso. exact (proj1 (proj2 HL) _ Him).
    + destruct (V' x y Hx Hy) as (back' & mid & E1 & E2 & C). assert (back' = back) as -> by congruence.
      destruct (render_cel c inflate s sel t' cel) as [t2|e|q].
      * exfalso. destruct HC as (_ & _ & _ & _ & _ & V2). destruct (V2 x y Hx Hy) as (mid' & p & F1 & F2 & F3).
        assert (mid' = mid) as -> by congruence. apply (N p). eapply composed_join; [exact C|]. apply F3. constructor.
      * contradiction.
      * destruct HC as (l' & Hd' & O). assert (l' = l) as -> by congruence. f_equal.
        destruct O as [(_ & Hd1 & im & Hj & Hz & Hn)|[[_ G']|[[_ G']|(-> & _)]]].
        -- exfalso. eapply no_image_raw; eassumption.
        -- exfalso. exact (G' _ Him).
        -- exfalso. exact (G' Hm).
        -- reflexivity.
Qed.
End Frame.

Lemma frame_refused c i s : cfg_ok c -> is_bytes i -> addressable c i -> load c i = Ok s ->
  forall inflate, inflate_ok inflate -> sprite_fits c s ->
  forall sel k sf target, nth_error (api_frames s) k = Some sf -> is_bytes target ->
  forall q, render_frame c inflate s (Z.of_nat k) target sel = Panic q <->
    canvas_size s <= zlen target /\
    exists before cel after l, sf_cels sf = before ++ cel :: after /\ drawn s sel cel = Some l /\
      can_draw c inflate s sel before target /\ hindered c inflate s sel target before cel l q.
Proof.
  intros Hc Hi Ha Hl inflate Hinf Hfit sel k sf t Hk Hb q.
  rewrite (render_frame_eq c i s Hc Hi Ha Hl inflate Hfit sel k sf t Hk).
  pose proof (frame_cels_ok c i s Hc Hi Ha Hl k sf Hk) as HF.
  destruct (Z.ltb_spec (zlen t) (canvas_size s)) as [H|Ht].
  { split; [discriminate|]. intros (H' & _). lia. }
  split.
  - intro G. split; [exact Ht|]. apply fold_panics in G. destruct G as (before & cel & after & t' & E & H1 & H2).
    rewrite E in HF. apply Forall_app in HF. destruct HF as [HF1 HF2]. inversion HF2 as [|? ? Hok _]; subst.
    assert (exists l, drawn s sel cel = Some l) as [l Ed].
    { rewrite (render_cel_eq c i s Hc Hi Ha Hl inflate Hfit sel) in H2 by exact Hok.
      destruct (drawn s sel cel) as [l|]; [eauto|discriminate]. }
    exists before, cel, after, l. split; [exact E|]. split; [exact Ed|]. split.
    + apply (draws c i s Hc Hi Ha Hl inflate Hinf Hfit sel before HF1 t Hb Ht). eauto.
    + apply (cel_hindered c i s Hc Hi Ha Hl inflate Hinf Hfit sel before t t' cel l q HF1 Hok Hb Ht H1 Ed). exact H2.
  - intros (_ & before & cel & after & l & E & Ed & D & Hh).
    rewrite E in HF. apply Forall_app in HF. destruct HF as [HF1 HF2]. inversion HF2 as [|? ? Hok _]; subst.
    apply (draws c i s Hc Hi Ha Hl inflate Hinf Hfit sel before HF1 t Hb Ht) in D. destruct D as [t' H1].
    rewrite E. apply fold_panics. exists before, cel, after, t'. split; [reflexivity|]. split; [exact H1|].
    apply (cel_hindered c i s Hc Hi Ha Hl inflate Hinf Hfit sel before t t' cel l q HF1 Hok Hb Ht H1 Ed). exact Hh.
Qed.
