(** How much room pictures need (C107). *)
From Coq Require Import Lia.
From Verif.Model Require Import Loader Inflate.
From Verif.Spec Require Import Bytes ImageSpec BlendSpec RenderSpec Zlib Format LoaderSpec Slices.
From Verif.Proofs Require Import ParseLib FileFinal BinaryFinal LoaderProps ImageProps InflateFacts RenderProps ExactProps ZlibProps.
From Verif.Tests Require Import Configs Build.

Lemma plain_bound c i s inflate j im target t : cfg_ok c -> is_bytes i -> addressable c i -> load c i = Ok s ->
  inflate_ok inflate -> nth_error (af_images s) j = Some im -> sizes_fit c im -> addressable c target ->
  im_compressed im = false -> load_image c inflate s (Z.of_nat j) target = Ok t ->
  rgba_size im <= 4 * zlen i.
Proof.
  intros Hc Hi Ha Hl Hinf Hj Hf Ht Hz H.
  apply (load_image_ok c i s Hc Hi Ha Hl inflate Hinf j im target Hj Hf Ht) in H. destruct H as (_ & rgba & Hd & _).
  assert (X : infix (im_data im) i).
  { apply (sprite_slices_infix c i s Hc Hi Ha Hl). unfold sprite_slices. rewrite !in_app_iff. right. right. right.
    apply in_map. now apply nth_error_In in Hj. }
  destruct X as (a & b & ->). rewrite !zlen_app. pose proof (zlen_nonneg a). pose proof (zlen_nonneg b).
  unfold decoded, stored in Hd. rewrite Hz in Hd. unfold rgba_size in *.
  destruct (h_color_depth (f_header (af_file s))).
  - destruct Hd as [E1 E]. rewrite E1 in E. pose proof (zlen_nonneg (im_data im)). lia.
  - destruct Hd as (px & E1 & E & _). rewrite E1 in E. pose proof (zlen_nonneg (im_data im)). lia.
  - destruct Hd as (px & pal & E1 & _ & E & _). rewrite E1 in E. lia.
  - contradiction.
Qed.

Definition bomb : bytes :=
  Eval vm_compute in hdr 1 32 1 1 ++ frm [layer_ch 1 0 0 255 [97]; zip_cel_ch 0 0 0 255 65535 65535 (zlib_stored [[1; 2; 3; 4]])].

Lemma bomb_inflates n : 4 <= n -> inflate_zlib (zlib_stored [[1; 2; 3; 4]]) n = (ZStreamEnd, [1; 2; 3; 4]).
Proof.
  intro H. pose proof (inflate_stored [[1; 2; 3; 4]] (adler [1; 2; 3; 4]) [] n) as E.
  rewrite app_nil_r in E. change (zlib_stored [[1; 2; 3; 4]]) with ([120; 1] ++ stored_blocks [[1; 2; 3; 4]] ++ be32 (adler [1; 2; 3; 4])).
  rewrite E.
  - change (zlen (concat [[1; 2; 3; 4]])) with 4. replace (n <? 4) with false by lia. reflexivity.
  - split; [discriminate|]. constructor; [|constructor]. split; [vm_compute; discriminate|apply bytes_by_compute; reflexivity].
  - split; vm_compute; [discriminate|reflexivity].
  - lia.
Qed.

Lemma scratch inflate im n : 4 <= n -> im_compressed im = true -> inflate (im_data im) n = (ZStreamEnd, [1; 2; 3; 4]) ->
  stored inflate im (repeat 0 (Z.to_nat n)) ([1; 2; 3; 4] ++ skipn 4 (repeat 0 (Z.to_nat n))) /\
  zlen ([1; 2; 3; 4] ++ skipn 4 (repeat 0 (Z.to_nat n))) = n.
Proof.
  intros Hn Hz Hb. assert (E2 : zlen (repeat 0 (Z.to_nat n)) = n) by (unfold zlen; rewrite repeat_length; lia).
  split.
  - unfold stored. rewrite Hz. exists [1; 2; 3; 4]. rewrite E2. split; [exact Hb|reflexivity].
  - rewrite zlen_app. change (zlen [1; 2; 3; 4]) with 4. unfold zlen in *. rewrite skipn_length. lia.
Qed.

(** What the file holds *)
Lemma bomb_loads c : usize_bits c = 64 -> exists s, load c bomb = Ok s /\ api_size s = (1, 1) /\
    af_images s = [{| im_width := 65535; im_height := 65535; im_data := zlib_stored [[1; 2; 3; 4]]; im_compressed := true |}] /\
    h_color_depth (f_header (af_file s)) = Rgba /\
    exists sf cel l, api_frames s = [sf] /\ sf_cels sf = [cel] /\ drawn s SelAll cel = Some l /\ covers cel 0 0 = true /\
      fc_image_index cel = 0 /\ fc_size cel = (65535, 65535) /\ fc_origin cel = (0, 0) /\
      ly_blend_mode l = BNormal /\ ly_opacity l = 255.
Proof.
  intros H64. destruct c as [[] u]; cbn in H64; subst u; (eexists; split; [vm_compute; reflexivity|]; split; [reflexivity|]; split; [vm_compute; reflexivity|];
      split; [reflexivity|]; do 3 eexists; split; [reflexivity|]; split; [reflexivity|]; split; [vm_compute; reflexivity|]; repeat split; vm_compute; reflexivity).
Qed.

Lemma bomb_drawn_it c inflate : usize_bits c = 64 -> inflate_ok inflate ->
  inflate (zlib_stored [[1; 2; 3; 4]]) 17179344900 = (ZStreamEnd, [1; 2; 3; 4]) ->
  exists s im, is_bytes bomb /\ zlen bomb = 210 /\ load c bomb = Ok s /\ api_size s = (1, 1) /\ af_images s = [im] /\
    rgba_size im = 17179344900 /\
    (forall target, addressable c target -> zlen target < 17179344900 ->
       exists t, load_image c inflate s 0 target = Err (TargetBufferTooSmall, t)) /\
    render_frame c inflate s 0 [0; 0; 0; 0] SelAll = Ok [1; 2; 3; 4].
Proof.
  intros H64 Hinf Hb. assert (Hc : cfg_ok c) by (right; exact H64).
  assert (Hi : is_bytes bomb) by (apply bytes_by_compute; reflexivity).
  assert (Ha : addressable c bomb) by (unfold addressable; rewrite H64; vm_compute; reflexivity).
  pose proof (bomb_loads c H64) as Hl.
  destruct Hl as (s & Hl & Hsz & Him & Hd & sf & cel & l & Hf & Hcel & Hdr & Hcov & Hx & Hs & Ho & Hm & Hop).
  exists s. eexists. split; [exact Hi|]. split; [reflexivity|]. split; [exact Hl|]. split; [exact Hsz|].
  split; [exact Him|]. split; [reflexivity|].
  pose proof (wide_fits c bomb s Hc Hi Ha Hl H64) as Hfit.
  split.
  { intros target Ht Hlen. change 0 with (Z.of_nat 0).
    eapply (size_test c bomb s inflate 0%nat); try eassumption.
    - rewrite Him. reflexivity.
    - apply (wide_in_range c bomb s Hc Hi Ha Hl _ H64). rewrite Him. now left.
    - cbn [im_width im_height]. lia. }
  assert (HW : canvas_width s = 1 /\ canvas_height s = 1) by (unfold api_size in Hsz; injection Hsz; auto).
  destruct HW as [HW HH].
  assert (Himg : exists image, cel_image inflate s cel image /\ pixel 65535 image 0 0 = Some (mkpx 1 2 3 4)).
  { remember 17179344900 as n eqn:En. assert (Hn : 4 <= n) by (rewrite En; vm_compute; discriminate).
    assert (E : n = 65535 * 65535 * 4) by (rewrite En; reflexivity). clear En.
    exists ([1; 2; 3; 4] ++ skipn 4 (repeat 0 (Z.to_nat n))). split; [|reflexivity].
    unfold cel_image. rewrite Hx, Him. eexists. split; [reflexivity|]. unfold decoded. rewrite Hd.
    unfold rgba_size. cbn [im_width im_height]. rewrite <- E. clear E. apply (scratch inflate _ n Hn); [reflexivity|exact Hb]. }
  change 0 with (Z.of_nat 0) at 1.
  apply (render_exactly c bomb s Hc Hi Ha Hl inflate Hinf Hfit SelAll 0 sf).
  - rewrite Hf. reflexivity.
  - apply bytes_by_compute; reflexivity.
  - unfold canvas_size. rewrite HW, HH. refine (conj _ (conj _ (conj _ (conj _ _)))).
    + vm_compute. discriminate.
    + reflexivity.
    + reflexivity.
    + intros cel' l' Hin Hdr'. rewrite Hcel in Hin. destruct Hin as [<-|[]]. assert (l' = l) as -> by congruence.
      split; [destruct Himg as (image & H & _); exists image; exact H|]. rewrite Hm. left. cbn. tauto.
    + intros x y Hx0 Hy0. assert (x = 0) as -> by lia. assert (y = 0) as -> by lia.
      do 2 eexists. split; [reflexivity|]. split; [reflexivity|]. destruct Himg as (image & Hci & Hpx). rewrite Hcel.
      eapply composed_draw; [exact Hdr|exact Hcov|exact Hci| | | |constructor].
      * rewrite Hs, Ho. exact Hpx.
      * rewrite Hm. reflexivity.
      * rewrite Hop. destruct c as [[] u]; vm_compute; reflexivity.
Qed.

Lemma bomb_drawn c inflate : usize_bits c = 64 -> inflate_ok inflate ->
  inflate (zlib_stored [[1; 2; 3; 4]]) 17179344900 = (ZStreamEnd, [1; 2; 3; 4]) ->
  exists i s im, is_bytes i /\ zlen i = 210 /\ load c i = Ok s /\ api_size s = (1, 1) /\ af_images s = [im] /\
    rgba_size im = 17179344900 /\
    (forall target, addressable c target -> zlen target < 17179344900 ->
       exists t, load_image c inflate s 0 target = Err (TargetBufferTooSmall, t)) /\
    render_frame c inflate s 0 [0; 0; 0; 0] SelAll = Ok [1; 2; 3; 4].
Proof. intros H64 Hinf Hb. exists bomb. now apply bomb_drawn_it. Qed.

Lemma bomb_zlib c : usize_bits c = 64 ->
  exists i s im, is_bytes i /\ zlen i = 210 /\ load c i = Ok s /\ api_size s = (1, 1) /\ af_images s = [im] /\
    rgba_size im = 17179344900 /\
    (forall target, addressable c target -> zlen target < 17179344900 ->
       exists t, load_image c inflate_zlib s 0 target = Err (TargetBufferTooSmall, t)) /\
    render_frame c inflate_zlib s 0 [0; 0; 0; 0] SelAll = Ok [1; 2; 3; 4].
Proof. intro H. apply bomb_drawn; [exact H|exact inflate_zlib_ok|apply bomb_inflates; lia]. Qed.
