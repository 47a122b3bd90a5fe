(** [load_image] on loaded files: the statements of Properties/Image.v. *)
From Verif.Model Require Import Loader.
From Verif.Spec Require Import Bytes Format FileSpec LoaderSpec Slices ImageSpec.
From Verif.Proofs Require Import ParseLib RawFacts SlicesFacts FileFacts PaletteFacts FileProps LoaderFacts LoaderProps FileFinal
  BinaryFinal ImageFacts.
From Verif.Tests Require Import Configs Build.

Lemma infix_bytes s i : infix s i -> is_bytes i -> is_bytes s.
Proof. intros (a & b & ->) H. apply Forall_app in H as [_ H]. now apply Forall_app in H. Qed.

Lemma raw_payload_sizes c i raw : cfg_ok c -> is_bytes i -> addressable c i -> parse_raw_file c i = Ok raw ->
  Forall (fun fr => Forall (fun x => exists d, payload_l (kept_error c) x d /\ zlen d < 2 ^ 32) (rf_chunks fr)) (rw_frames raw).
Proof.
  intros Hc Hi Ha H. apply parse_raw_file_iff in H as (e1 & e2 & H1 & H2 & (ps & H3 & _) & _); [|assumption..].
  apply Forall2_Forall_ex in H3. eapply Forall_impl; [|exact H3].
  intros fr (b & old & new & g1 & body & g2 & ? & ? & ? & ? & ? & ? & (ps' & Hf & _) & _).
  apply Forall2_Forall_ex in Hf. eapply Forall_impl; [|exact Hf].
  intros x (b' & d & Hb & Hp & E). exists d. split; [exact Hp|].
  unfold u32, uint in Hb. assert (zlen d <= zlen b').
  { rewrite E. rewrite !zlen_app. pose proof (zlen_nonneg (le 4 (zlen b'))). pose proof (zlen_nonneg (le 2 (chunk_code x))). lia. }
  cbn in Hb. lia.
Qed.

Section Loaded.
Context (c : cfg) (i : bytes) (s : ase_file).
Context (Hc : cfg_ok c) (Hi : is_bytes i) (Ha : addressable c i) (Hload : load c i = Ok s).

Lemma image_facts im : In im (af_images s) ->
  0 <= im_width im < 65536 /\ 0 <= im_height im < 65536 /\ is_bytes (im_data im) /\ zlen (im_data im) < 2 ^ 32.
Proof.
  intro Him. pose proof (loaded_parse c i s Hload) as Hp.
  assert (Hb : is_bytes (im_data im)).
  { eapply infix_bytes; [|exact Hi]. apply (sprite_slices_infix c i s Hc Hi Ha Hload). unfold sprite_slices.
    rewrite !in_app_iff. right. right. right. now apply in_map. }
  rewrite (loaded_images c i s Hload) in Him. apply in_map_iff in Him as ([key im'] & E & Him). cbn in E. subst im'.
  apply image_cels_in_file in Him as (k & fr & x & _ & Hfr & Hx & Ex).
  destruct (parse_file_ok c i _ Hc Hi Ha Hp) as (raw & pal & _ & Hr & _ & Ef & _).
  rewrite Ef in Hfr. cbn [file_of f_frames] in Hfr. apply nth_error_In in Hfr.
  apply in_map_iff in Hfr as (rf & <- & Hrf).
  apply in_flat_map in Hx as (o & Ho & Hx). destruct o as [x'|]; [|destruct Hx]. destruct Hx as [->|[]].
  cbn [fr_cels] in Ho. apply in_map_iff in Ho as (k' & Hk & _). apply cel_at_some in Hk as (a & b & Hk & _).
  assert (Hin : In x (spec_cels (rf_chunks rf))) by (rewrite Hk; apply in_or_app; right; now left).
  apply spec_cels_in in Hin as (x0 & r & a0 & Hcs & ->).
  pose proof (raw_payload_sizes c i raw Hc Hi Ha Hr) as HP. rewrite Forall_forall in HP.
  specialize (HP rf Hrf). rewrite Hcs in HP. apply Forall_app in HP as [_ HP].
  inversion HP as [|? ? (d & Hd & Hs) _]; subst.
  destruct Hd as (ty & ig & body & _ & _ & _ & _ & _ & _ & _ & Hct & _ & Ed).
  change (cc_content x0 = CImage im) in Ex. rewrite Ex in Hct. destruct Hct as (_ & Hu & Hv & Eb).
  unfold u16, uint in Hu, Hv. change (256 ^ Z.of_nat 2) with 65536 in *.
  split; [lia|]. split; [lia|]. split; [exact Hb|].
  rewrite Ed, Eb, !zlen_app in Hs.
  repeat match type of Hs with context [zlen ?l + _] =>
    lazymatch goal with H : 0 <= zlen l |- _ => fail | _ => pose proof (zlen_nonneg l) end end. lia.
Qed.

Lemma palette_size p : f_palette (af_file s) = Some p -> zlen p = 256.
Proof.
  intro H. pose proof (loaded_parse c i s Hload) as Hp.
  destruct (parse_file_ok c i _ Hc Hi Ha Hp) as (raw & pal & Hr & _ & Hpal & Ef & _).
  rewrite Ef in H. cbn [file_of f_palette] in H. subst pal. unfold palette_of in Hpal.
  destruct (h_color_depth (rw_header raw)); try discriminate. destruct (spec_palette _ _) as [q|] eqn:E; [|discriminate].
  injection Hpal as ->. now apply spec_palette_nth in E as (ws & _ & _ & H & _).
Qed.

Lemma palette_present : h_color_depth (f_header (af_file s)) = Indexed -> exists p, f_palette (af_file s) = Some p.
Proof.
  intro H. pose proof (loaded_parse c i s Hload) as Hp.
  destruct (parse_file_ok c i _ Hc Hi Ha Hp) as (raw & pal & Hr & _ & Hpal & Ef & _).
  rewrite Ef in *. cbn [file_of f_palette f_header] in *. unfold palette_of in Hpal. rewrite H in Hpal.
  destruct (spec_palette _ _); [|discriminate]. injection Hpal as <-. eauto.
Qed.

Lemma wide_in_range im : usize_bits c = 64 -> In im (af_images s) -> sizes_fit c im.
Proof.
  intros H64 Him. destruct (image_facts im Him) as (H1 & H2 & _ & H3). unfold sizes_fit, rgba_size. rewrite H64.
  change (2 ^ 64) with 18446744073709551616. change (2 ^ 32) with 4294967296 in H3. nia.
Qed.

Context (inflate : inflater) (Hinf : inflate_ok inflate).
Context (j : nat) (im : image) (target : bytes).
Context (Hj : nth_error (af_images s) j = Some im) (Hr : sizes_fit c im) (Hta : addressable c target).

Let size := Z.to_nat (rgba_size im).

Lemma size_nonneg : 0 <= rgba_size im.
Proof. destruct (image_facts im (nth_error_In _ _ Hj)) as (H1 & H2 & _). unfold rgba_size. nia. Qed.

Lemma load_image_unfold : load_image c inflate s (Z.of_nat j) target =
  if zlen target <? rgba_size im then Err (TargetBufferTooSmall, target) else
  with_tail (skipn size target) (decode_image c inflate (af_file s) im (firstn size target)).
Proof.
  destruct (image_facts im (nth_error_In _ _ Hj)) as (H1 & H2 & _). destruct Hr as [H3 _]. unfold rgba_size in H3.
  unfold load_image. rewrite (get_index_ok _ (Z.of_nat j) im) by (rewrite ?Nat2Z.id; (assumption || lia)). cbn [bind].
  rewrite usizec_id by nia. cbn [bind]. rewrite usizec_id by nia. reflexivity.
Qed.

Lemma too_small : zlen target < rgba_size im ->
  load_image c inflate s (Z.of_nat j) target = Err (TargetBufferTooSmall, target).
Proof. intro H. rewrite load_image_unfold. replace (_ <? _) with true by lia. reflexivity. Qed.

Lemma area_addressable : rgba_size im <= zlen target ->
  zlen (firstn size target) = rgba_size im /\ addressable c (firstn size target).
Proof.
  intro H. pose proof size_nonneg. assert (E : zlen (firstn size target) = rgba_size im) by (apply zlen_firstn; lia).
  split; [exact E|]. unfold addressable in *. lia.
Qed.

Lemma load_image_ok r : load_image c inflate s (Z.of_nat j) target = Ok r <->
  rgba_size im <= zlen target /\
  exists rgba, decoded inflate (af_file s) im (firstn size target) rgba /\ r = rgba ++ skipn size target.
Proof.
  rewrite load_image_unfold. destruct (Z.ltb_spec (zlen target) (rgba_size im)) as [H|H].
  { split; [discriminate|]. intros [H' _]. lia. }
  destruct (area_addressable H) as [HL HA].
  destruct (image_facts im (nth_error_In _ _ Hj)) as (H1 & H2 & H3 & _). destruct Hr as [_ H4].
  pose proof (decode_outcome c inflate (af_file s) im (firstn size target) Hc Hinf H1 H2 H3 H4 palette_size HL HA) as HO.
  destruct (decode_image _ _ _ _ _) as [t|[e t]|q]; cbn [with_tail].
  - split.
    + intros [= <-]. split; [lia|]. eauto.
    + intros (_ & rgba & Hd & ->). now rewrite (decoded_unique _ _ _ _ _ _ Hd HO).
  - split; [discriminate|]. intros (_ & rgba & Hd & _). destruct HO as [_ HO]. now apply HO in Hd.
  - split; [discriminate|]. intros (_ & rgba & Hd & _). destruct HO as (_ & Ed & Ez & Hne).
    unfold decoded, stored in Hd. rewrite Ed, Ez in Hd. destruct Hd as [-> Hd]. contradiction.
Qed.

Lemma load_image_panic q : load_image c inflate s (Z.of_nat j) target = Panic q <->
  q = PCopyLen /\ rgba_size im <= zlen target /\ h_color_depth (f_header (af_file s)) = Rgba /\
  im_compressed im = false /\ zlen (im_data im) <> rgba_size im.
Proof.
  rewrite load_image_unfold. destruct (Z.ltb_spec (zlen target) (rgba_size im)) as [H|H].
  { split; [discriminate|]. lia. }
  destruct (area_addressable H) as [HL HA].
  destruct (image_facts im (nth_error_In _ _ Hj)) as (H1 & H2 & H3 & _). destruct Hr as [_ H4].
  split.
  - intro E. pose proof (decode_outcome c inflate (af_file s) im (firstn size target) Hc Hinf H1 H2 H3 H4 palette_size HL HA) as HO.
    destruct (decode_image _ _ _ _ _) as [t|[e t]|q']; cbn [with_tail] in E; try discriminate. injection E as <-. intuition.
  - intros (-> & _ & Ed & Ez & Hne). unfold decode_image. rewrite Ed, Ez, HL.
    replace (_ =? _) with false by lia. reflexivity.
Qed.
End Loaded.

(** ** Pixel by pixel *)
Lemma quad_cons r g b a l k : quad (r :: g :: b :: a :: l) (S k) = quad l k.
Proof. unfold quad. now replace (4 * S k)%nat with (4 + 4 * k)%nat by lia. Qed.

Lemma gray_quad l : forall k v a, nth_error l (2 * k) = Some v -> nth_error l (2 * k + 1) = Some a ->
  quad (gray_rgba l) k = Some (v, v, v, a).
Proof.
  assert (G : forall n l, (length l <= n)%nat -> forall k v a, nth_error l (2 * k) = Some v -> nth_error l (2 * k + 1) = Some a ->
    quad (gray_rgba l) k = Some (v, v, v, a)).
  { clear. induction n as [|n IH]; intros l Hl k v a Hv Ha.
    - destruct l; [|cbn in Hl; lia]. destruct (2 * k)%nat; discriminate.
    - destruct l as [|x [|y l]].
      + destruct (2 * k)%nat; discriminate.
      + destruct k; [discriminate|]. replace (2 * S k)%nat with (S (S (2 * k))) in Hv by lia. cbn in Hv.
        destruct (k + (k + 0))%nat; discriminate.
      + destruct k as [|k].
        * cbn in Hv, Ha. injection Hv as ->. injection Ha as ->. reflexivity.
        * cbn [gray_rgba]. rewrite quad_cons. apply IH; [cbn in Hl; lia| |].
          -- replace (2 * S k)%nat with (S (S (2 * k))) in Hv by lia. exact Hv.
          -- replace (2 * S k + 1)%nat with (S (S (2 * k + 1))) in Ha by lia. exact Ha. }
  intros. eapply G; [apply le_n|eassumption..].
Qed.

Lemma index_quad pal l : forall k p, nth_error l k = Some p ->
  quad (index_rgba pal l) k = let x := nth (Z.to_nat p) pal black in Some (red x, green x, blue x, alpha x).
Proof.
  induction l as [|q l IH]; intros [|k] p H; try discriminate.
  - injection H as ->. reflexivity.
  - cbn [index_rgba flat_map app]. rewrite quad_cons. now apply IH.
Qed.

Lemma quad_app a b k : (4 * k + 3 < length a)%nat -> quad (a ++ b) k = quad a k.
Proof.
  intro H. unfold quad. rewrite skipn_app. replace (4 * k - length a)%nat with 0%nat by lia. cbn [skipn].
  assert (4 <= length (skipn (4 * k) a))%nat by (rewrite skipn_length; lia).
  destruct (skipn (4 * k) a) as [|? [|? [|? [|? ?]]]]; cbn in *; try lia. reflexivity.
Qed.

Lemma nth_error_lt {A} (l : list A) k : (k < length l)%nat -> exists x, nth_error l k = Some x.
Proof. intro H. destruct (nth_error l k) eqn:E; [eauto|]. apply nth_error_None in E. lia. Qed.

Lemma load_image_pixels c i s inflate j im target r : cfg_ok c -> is_bytes i -> addressable c i -> load c i = Ok s ->
  inflate_ok inflate -> nth_error (af_images s) j = Some im -> sizes_fit c im -> addressable c target ->
  load_image c inflate s (Z.of_nat j) target = Ok r ->
  forall k, Z.of_nat k < im_width im * im_height im ->
  match h_color_depth (f_header (af_file s)) with
  | Rgba => exists px q, stored inflate im (firstn (Z.to_nat (rgba_size im)) target) px /\
      quad px k = Some q /\ quad r k = Some q
  | Grayscale => exists px v a, stored inflate im (repeat 0 (2 * Z.to_nat (im_width im * im_height im))) px /\
      nth_error px (2 * k) = Some v /\ nth_error px (2 * k + 1) = Some a /\ quad r k = Some (v, v, v, a)
  | Indexed => exists px pal p x, stored inflate im (repeat 0 (Z.to_nat (im_width im * im_height im))) px /\
      f_palette (af_file s) = Some pal /\ nth_error px k = Some p /\ 0 <= p /\ nth_error pal (Z.to_nat p) = Some x /\
      quad r k = Some (red x, green x, blue x, alpha x)
  | DUnknown _ => False
  end.
Proof.
  intros Hc Hi Ha Hload Hinf Hj Hr Hta H k Hk.
  destruct (image_facts c i s Hc Hi Ha Hload im (nth_error_In _ _ Hj)) as (H1 & H2 & H3 & _).
  destruct (proj1 (load_image_ok c i s Hc Hi Ha Hload inflate Hinf j im target Hj Hr Hta r) H) as (Hl & rgba & Hd & ->).
  set (old := firstn _ target) in *.
  assert (HO : zlen old = rgba_size im) by (apply zlen_firstn; unfold rgba_size in *; nia).
  assert (HL : zlen rgba = rgba_size im) by (eapply (decoded_length c inflate (af_file s) im old); [eassumption|eassumption|exact (palette_size c i s Hc Hi Ha Hload)|eassumption]).
  assert (Hq : quad (rgba ++ skipn (Z.to_nat (rgba_size im)) target) k = quad rgba k).
  { apply quad_app. unfold zlen, rgba_size in HL. lia. }
  rewrite Hq. unfold decoded in Hd. destruct (h_color_depth (f_header (af_file s))).
  - destruct Hd as [Hs _]. assert (exists q, quad rgba k = Some q) as [q E].
    { unfold quad. assert (4 <= length (skipn (4 * k) rgba))%nat by (rewrite skipn_length; unfold zlen, rgba_size in HL; lia).
      destruct (skipn (4 * k) rgba) as [|? [|? [|? [|? ?]]]]; cbn in *; try lia. eauto. }
    exists rgba, q. auto.
  - destruct Hd as (px & Hs & Hp & ->).
    destruct (nth_error_lt px (2 * k)) as [v Hv]; [unfold zlen in Hp; lia|].
    destruct (nth_error_lt px (2 * k + 1)) as [a Ha']; [unfold zlen in Hp; lia|].
    exists px, v, a. repeat split; try assumption. now apply gray_quad.
  - destruct Hd as (px & pal & Hs & Hpal & Hp & ->).
    destruct (nth_error_lt px k) as [p Hv]; [unfold zlen in Hp; lia|].
    assert (Hpb : is_bytes px).
    { revert Hs. unfold stored. destruct (im_compressed im); [|intros ->; exact H3].
      intros (w & E & ->). eapply inflated_bytes; [eassumption..|apply bytes_zero]. }
    assert (Hpp : is_byte p) by (unfold is_bytes in Hpb; rewrite Forall_forall in Hpb; apply Hpb; eapply nth_error_In, Hv).
    pose proof (palette_size c i s Hc Hi Ha Hload pal Hpal) as H256. unfold is_byte in Hpp.
    exists px, pal, p, (nth (Z.to_nat p) pal black). repeat split; try assumption; try lia.
    + apply nth_error_nth'. unfold zlen in H256. lia.
    + now rewrite (index_quad pal px k p Hv).
  - contradiction.
Qed.

(** ** C33 *)
Lemma stored_fresh inflate im old old' w : inflate (im_data im) (zlen old) = (ZStreamEnd, w) ->
  zlen w = zlen old -> zlen old' = zlen old -> stored inflate im old w -> stored inflate im old' w.
Proof.
  unfold stored. intros E Hw Ho. destruct (im_compressed im); [|auto]. intros _. exists w. rewrite Ho. split; [exact E|].
  rewrite skipn_all2; [now rewrite app_nil_r|]. unfold zlen in *. lia.
Qed.

Lemma overwritten c i s inflate j im target target' r : cfg_ok c -> is_bytes i -> addressable c i -> load c i = Ok s ->
  inflate_ok inflate -> nth_error (af_images s) j = Some im -> sizes_fit c im ->
  addressable c target -> addressable c target' ->
  (h_color_depth (f_header (af_file s)) = Rgba -> im_compressed im = true ->
   forall w, inflate (im_data im) (rgba_size im) = (ZStreamEnd, w) -> zlen w = rgba_size im) ->
  load_image c inflate s (Z.of_nat j) target = Ok r -> rgba_size im <= zlen target' ->
  exists r', load_image c inflate s (Z.of_nat j) target' = Ok r' /\
    firstn (Z.to_nat (rgba_size im)) r' = firstn (Z.to_nat (rgba_size im)) r.
Proof.
  intros Hc Hi Ha Hload Hinf Hj Hr Hta Hta' Hfull H Hl'.
  destruct (image_facts c i s Hc Hi Ha Hload im (nth_error_In _ _ Hj)) as (H1 & H2 & H3 & _).
  assert (H0 : 0 <= rgba_size im) by (unfold rgba_size; nia).
  destruct (proj1 (load_image_ok c i s Hc Hi Ha Hload inflate Hinf j im target Hj Hr Hta r) H) as (Hl & rgba & Hd & ->).
  set (n := Z.to_nat (rgba_size im)) in *.
  assert (HO : zlen (firstn n target) = rgba_size im) by (apply zlen_firstn; lia).
  assert (HO' : zlen (firstn n target') = rgba_size im) by (apply zlen_firstn; lia).
  assert (HL : zlen rgba = rgba_size im) by (eapply (decoded_length c inflate (af_file s) im (firstn n target)); [eassumption|eassumption|exact (palette_size c i s Hc Hi Ha Hload)|eassumption]).
  assert (Hd' : decoded inflate (af_file s) im (firstn n target') rgba).
  { unfold decoded in *. destruct (h_color_depth (f_header (af_file s))) eqn:Ed; try exact Hd.
    destruct Hd as [Hs Hz]. split; [|exact Hz]. unfold stored in *. destruct (im_compressed im) eqn:Ez; [|exact Hs].
    destruct Hs as (w & E & ->). rewrite HO in E. pose proof (Hfull eq_refl eq_refl w E) as Hw.
    exists w. rewrite HO'. split; [exact E|]. rewrite !skipn_all2; [reflexivity|unfold zlen in *; lia|unfold zlen in *; lia]. }
  exists (rgba ++ skipn n target'). split.
  - apply (load_image_ok c i s Hc Hi Ha Hload inflate Hinf j im target' Hj Hr Hta'). eauto.
  - assert (length rgba = n) by (unfold zlen in HL; unfold n; lia).
    rewrite !firstn_app, !H4, !Nat.sub_diag, !firstn_O. reflexivity.
Qed.

(** zlib stream of no bytes at all *)
Definition empty_stream : bytes := [0x78; 0x9c; 3; 0; 0; 0; 0; 1].
Definition stale_file : bytes :=
  hdr 1 32 1 1 ++ frm [layer_ch 1 0 0 255 [97]; zip_cel_ch 0 0 0 255 1 1 empty_stream].
Lemma stale_pixels c inflate : cfg_ok c -> inflate empty_stream 4 = (ZStreamEnd, []) ->
  exists i s, is_bytes i /\ addressable c i /\ load c i = Ok s /\ api_image_count s = 1 /\
    forall target, zlen target = 4 -> load_image c inflate s 0 target = Ok target.
Proof.
  intros Hc Hi. revert c Hc.
  assert (G : forall c s, cfg_ok c -> af_images s = [{| im_width := 1; im_height := 1; im_data := empty_stream; im_compressed := true |}] ->
     h_color_depth (f_header (af_file s)) = Rgba ->
     forall target, zlen target = 4 -> load_image c inflate s 0 target = Ok target).
  { intros c s Hc Es Ed target Ht. unfold load_image. rewrite Es. cbn [get_index Z.leb Z.compare Z.to_nat nth_error bind im_width im_height].
    destruct (usize_pos c Hc) as [HU _]. change (2 ^ 32) with 4294967296 in HU.
    rewrite usizec_id by (cbn; lia). cbn [bind]. rewrite usizec_id by (cbn; lia). cbn [bind].
    rewrite Ht. change (1 * 1 * 4) with 4. cbn [Z.ltb Z.compare Pos.compare Pos.compare_cont].
    unfold decode_image. rewrite Ed. cbn [im_compressed im_data]. unfold decompress.
    assert (E : firstn (Z.to_nat 4) target = target) by (apply firstn_all2; unfold zlen in Ht; cbn; lia).
    assert (E' : skipn (Z.to_nat 4) target = []) by (apply skipn_all2; unfold zlen in Ht; cbn; lia).
    rewrite E, E', Ht, Hi. cbn. now rewrite app_nil_r. }
  apply cfg_cases; (exists stale_file; eexists; split; [apply bytes_by_compute; reflexivity|]; split; [vm_compute; reflexivity|];
    split; [vm_compute; reflexivity|]; split; [reflexivity|]; apply G; [first [now left|now right]|reflexivity|reflexivity]).
Qed.

(** ** C34 *)
Definition wrong_length_file : bytes :=
  hdr 1 32 1 1 ++ frm [layer_ch 1 0 0 255 [97]; raw_cel_ch 0 0 0 255 1 1 [1; 2; 3]].
Lemma wrong_length c inflate : cfg_ok c ->
  exists i s, is_bytes i /\ addressable c i /\ load c i = Ok s /\ api_image_count s = 1 /\
    load_image c inflate s 0 [0; 0; 0; 0] = Panic PCopyLen.
Proof.
  revert c. apply cfg_cases; (exists wrong_length_file; eexists; split; [apply bytes_by_compute; reflexivity|];
    split; [vm_compute; reflexivity|]; split; [vm_compute; reflexivity|]; split; vm_compute; reflexivity).
Qed.

(** ** C52 *)
Definition huge_file : bytes :=
  hdr 1 32 32768 32768 ++ frm [layer_ch 1 0 0 255 [97]; raw_cel_ch 0 0 0 255 32768 32768 []].
Lemma size_wraps inflate :
  exists i s im, is_bytes i /\ addressable rel32 i /\ load rel32 i = Ok s /\ load dbg32 i = Ok s /\
    af_images s = [im] /\ rgba_size im = 4294967296 /\
    load_image rel32 inflate s 0 [] = Ok [] /\ load_image dbg32 inflate s 0 [] = Panic POverflow /\
    render_frame rel32 inflate s 0 [] (SelMask []) = Ok [] /\
    render_frame dbg32 inflate s 0 [] (SelMask []) = Panic POverflow.
Proof.
  exists huge_file. do 2 eexists. split; [apply bytes_by_compute; reflexivity|]. split; [vm_compute; reflexivity|].
  split; [vm_compute; reflexivity|]. split; [vm_compute; reflexivity|]. split; [reflexivity|].
  repeat split; vm_compute; reflexivity.
Qed.

(** The size test is exact when the sizes fit. *)
Lemma size_test c i s inflate j im target : cfg_ok c -> is_bytes i -> addressable c i -> load c i = Ok s ->
  inflate_ok inflate -> nth_error (af_images s) j = Some im -> sizes_fit c im -> addressable c target ->
  (exists t, load_image c inflate s (Z.of_nat j) target = Err (TargetBufferTooSmall, t)) <->
  zlen target < im_width im * im_height im * 4.
Proof.
  intros Hc Hi Ha Hload Hinf Hj Hr Hta.
  change (im_width im * im_height im * 4) with (rgba_size im). split.
  - intros [t Ht]. destruct (Z.ltb_spec (zlen target) (rgba_size im)) as [H|H]; [exact H|]. exfalso.
    pose proof Ht as Ht'. rewrite (load_image_unfold c i s Hc Hi Ha Hload inflate j im target Hj Hr) in Ht'.
    replace (_ <? _) with false in Ht' by lia.
    destruct (image_facts c i s Hc Hi Ha Hload im (nth_error_In _ _ Hj)) as (H1 & H2 & _).
    destruct (decode_image _ _ _ _ _) as [b|[e b]|p] eqn:E; cbn [with_tail] in Ht'; try discriminate.
    injection Ht' as -> _. now apply decode_not_too_small in E.
  - intro H. exists target. exact (too_small c i s Hc Hi Ha Hload inflate j im target Hj Hr H).
Qed.
