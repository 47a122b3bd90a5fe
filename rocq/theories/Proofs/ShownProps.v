(** From the bytes of a file to the pixels of its frames, by the published
    formats alone. *)
From Verif.Model Require Import Loader.
From Verif.Spec Require Import Bytes Format BlendSpec FileSpec LoaderSpec ImageSpec RenderSpec Composite Loads Looks AllModes Zlib Deflate Mistakes Displays.
From Verif.Proofs Require Import ParseLib RawFacts FileProps LoaderFacts LoaderProps FileFinal EditProps LoadsProps
  BlendProps ImageProps RenderFacts RenderProps CanvasProps ExactProps CompositeProps LooksProps AllModesProps MistakeProps.

Lemma stored_pixels inflate im n px : reads_zlib inflate -> is_bytes (im_data im) -> 0 <= n ->
  (stored inflate im (repeat 0 (Z.to_nat n)) px /\ zlen px = n <-> image_pixels im n px).
Proof.
  intros Hz Hb Hn. unfold stored, image_pixels.
  assert (E : zlen (repeat 0 (Z.to_nat n)) = n) by (unfold zlen; rewrite repeat_length; lia). rewrite E.
  destruct (im_compressed im); [|tauto].
  assert (K : forall w, zlen w <= n -> w ++ skipn (length w) (repeat 0 (Z.to_nat n)) = w ++ repeat 0 (Z.to_nat (n - zlen w)) /\
      zlen (w ++ repeat 0 (Z.to_nat (n - zlen w))) = n).
  { intros w Hw. unfold zlen in *. split.
    - f_equal. replace (Z.to_nat n) with (length w + Z.to_nat (n - Z.of_nat (length w)))%nat by lia.
      rewrite repeat_app, skipn_app, skipn_all2 by (rewrite repeat_length; lia). rewrite repeat_length, Nat.sub_diag. cbn [skipn app]. reflexivity.
    - rewrite app_length, repeat_length. lia. }
  split.
  - intros ((w & Hw & ->) & _). apply Hz in Hw as (Hl & stream & rest & Ed & Hs); try assumption.
    exists stream, rest, w. repeat (split; [assumption|]). now apply K.
  - intros (stream & rest & w & Ed & Hs & Hl & ->). destruct (K w Hl) as [K1 K2]. split; [|exact K2].
    exists w. rewrite K1. split; [|reflexivity]. apply Hz; try assumption. eauto.
Qed.

Lemma decoded_colours inflate f im rgba : reads_zlib inflate -> is_bytes (im_data im) -> 0 <= im_width im -> 0 <= im_height im ->
  (decoded inflate f im (repeat 0 (Z.to_nat (rgba_size im))) rgba <-> image_colours f im rgba).
Proof.
  intros Hz Hb Hw Hh. assert (Hn : 0 <= im_width im * im_height im) by nia.
  unfold decoded, image_colours, pixel_bytes, rgba_size. destruct (h_color_depth (f_header f)).
  - setoid_rewrite <- stored_pixels; try eassumption; try nia. split.
    + intro H. exists rgba. split; [exact H|reflexivity].
    + intros (px & H & ->). exact H.
  - setoid_rewrite <- stored_pixels; try eassumption; try nia.
    replace (2 * Z.to_nat (im_width im * im_height im))%nat with (Z.to_nat (im_width im * im_height im * 2)) by lia.
    rewrite (Z.mul_comm 2). split.
    + intros (px & H1 & H2 & H3). exists px. auto.
    + intros (px & (H1 & H2) & H3). exists px. auto.
  - setoid_rewrite <- stored_pixels; try eassumption; try nia. rewrite Z.mul_1_r. split.
    + intros (px & pal & H1 & H2 & H3 & H4). exists px. split; [auto|eauto].
    + intros (px & (H1 & H2) & pal & H3 & H4). exists px, pal. auto.
  - split; [tauto|]. now intros (px & _ & ?).
Qed.

(** ** Pictures of a file *)
Lemma picture_facts c i s k cel im : cfg_ok c -> is_bytes i -> addressable c i -> load c i = Ok s ->
  In (k, cel) (file_cels (f_frames (af_file s))) -> picture_of (f_frames (af_file s)) cel im ->
  0 <= im_width im /\ 0 <= im_height im /\ is_bytes (im_data im).
Proof.
  intros Hc Hi Ha Hs Hin Hp. destruct (sprite_parts c i s Hc Hi Ha Hs) as (_ & _ & Ei & _ & _).
  assert (In im (af_images s)).
  { rewrite Ei. unfold picture_of in Hp. destruct (cc_content cel) as [own|p| |] eqn:Ec; try contradiction.
    - subst own. apply in_map_iff. exists ((k, cc_layer_index cel), im). split; [reflexivity|]. apply image_cels_file. eauto.
    - destruct Hp as (o & H1 & H2 & H3). apply in_map_iff. exists ((p, cc_layer_index cel), im). split; [reflexivity|].
      apply image_cels_file. eauto. }
  destruct (image_facts c i s Hc Hi Ha Hs im H) as (H1 & H2 & H3 & _). repeat split; (lia || assumption).
Qed.

Section Displays.
Context (inflate : inflater) (f : file) (sel : layer_selection).
Let good cel := forall im, picture_of (f_frames f) cel im -> forall rgba,
  (decoded inflate f im (repeat 0 (Z.to_nat (rgba_size im))) rgba <-> image_colours f im rgba).

Lemma appears_displays x y cels back r : (forall cel, In cel cels -> good cel) ->
  (appears inflate f sel x y cels back r <-> displays f sel x y cels back r).
Proof.
  intro HG. split.
  - intro H. induction H as [|cel cels back r H1 H IH|cel cels im back r H1 H2 H IH|cel cels im image l front mid back r H1 H2 H3 H4 H5 H6 H IH].
    + constructor.
    + apply displays_hidden; [exact H1|]. apply IH. intros z Hz. apply HG. now right.
    + eapply displays_beside; [exact H1|exact H2|]. apply IH. intros z Hz. apply HG. now right.
    + eapply displays_drawn; [exact H1|exact H2|exact H3| |exact H5|exact H6|].
      * apply (HG cel (or_introl eq_refl) im H2). exact H4.
      * apply IH. intros z Hz. apply HG. now right.
  - intro H. induction H as [|cel cels back r H1 H IH|cel cels im back r H1 H2 H IH|cel cels im image l front mid back r H1 H2 H3 H4 H5 H6 H IH].
    + constructor.
    + apply appears_hidden; [exact H1|]. apply IH. intros z Hz. apply HG. now right.
    + eapply appears_beside; [exact H1|exact H2|]. apply IH. intros z Hz. apply HG. now right.
    + eapply appears_drawn; [exact H1|exact H2|exact H3| |exact H5|exact H6|].
      * apply (HG cel (or_introl eq_refl) im H2). exact H4.
      * apply IH. intros z Hz. apply HG. now right.
Qed.
Lemma looks_appears x y cels back r :
  (forall cel l, In cel cels -> on_layer (file_layers f) sel (cc_layer_index cel) = Some l -> separable (ly_blend_mode l)) ->
  (looks inflate f sel x y cels back r <-> appears inflate f sel x y cels back r).
Proof.
  intro HS. assert (E : forall m, separable m -> any_composite m = composite m) by (intros []; cbn; tauto). split.
  - intro H. induction H as [|cel cels back r H1 H IH|cel cels im back r H1 H2 H IH|cel cels im image l front mid back r H1 H2 H3 H4 H5 H6 H IH].
    + constructor.
    + apply appears_hidden; [exact H1|]. apply IH. intros z l' Hz. apply HS. now right.
    + eapply appears_beside; [exact H1|exact H2|]. apply IH. intros z l' Hz. apply HS. now right.
    + eapply appears_drawn; [exact H1|exact H2|exact H3|exact H4|exact H5| |].
      * rewrite E by exact (HS cel l (or_introl eq_refl) H1). exact H6.
      * apply IH. intros z l' Hz. apply HS. now right.
  - intro H. induction H as [|cel cels back r H1 H IH|cel cels im back r H1 H2 H IH|cel cels im image l front mid back r H1 H2 H3 H4 H5 H6 H IH].
    + constructor.
    + apply looks_hidden; [exact H1|]. apply IH. intros z l' Hz. apply HS. now right.
    + eapply looks_beside; [exact H1|exact H2|]. apply IH. intros z l' Hz. apply HS. now right.
    + eapply looks_drawn; [exact H1|exact H2|exact H3|exact H4|exact H5| |].
      * rewrite E in H6 by exact (HS cel l (or_introl eq_refl) H1). exact H6.
      * apply IH. intros z l' Hz. apply HS. now right.
Qed.
End Displays.

Section File.
Context (c : cfg) (i : bytes) (raw : raw_file) (f : file) (Hc : cfg_ok c) (Hi : is_bytes i) (Ha : addressable c i).
Context (Hr : raw_file_l area_bad raw i) (Hf : complete_file raw f).
Context (inflate : inflater) (Hinf : inflate_ok inflate) (Hz : reads_zlib inflate) (Hfit : file_fits c f).

Lemma kept_raw : raw_file_l (kept_error c) raw i.
Proof. revert Hr. apply raw_same; [|exact Hi]. intros. now apply (kept_first_mistake c). Qed.

Lemma pictures_good s k fr : load c i = Ok s -> nth_error (f_frames f) k = Some fr ->
  forall cel, In cel (filled fr) -> forall im, picture_of (f_frames f) cel im -> forall rgba,
  (decoded inflate f im (repeat 0 (Z.to_nat (rgba_size im))) rgba <-> image_colours f im rgba).
Proof.
  intros Hs Hk cel Hcel im Him rgba. destruct (sprite_parts c i s Hc Hi Ha Hs) as (Hp' & _).
  assert (Hp : parse_file c i = Ok f) by (apply parse_file_complete; eauto using kept_raw).
  assert (E : af_file s = f) by congruence.
  destruct (picture_facts c i s (Z.of_nat k) cel im Hc Hi Ha Hs) as (H1 & H2 & H3).
  - rewrite E. apply file_cels_in. split; [lia|]. exists fr. rewrite Nat2Z.id. auto.
  - now rewrite E.
  - now apply decoded_colours.
Qed.

Lemma frame_displays sel k fr target r : nth_error (f_frames f) k = Some fr -> is_bytes target ->
  (forall cel l, In cel (filled fr) -> on_layer (file_layers f) sel (cc_layer_index cel) = Some l -> separable (ly_blend_mode l)) ->
  ((exists s, load c i = Ok s /\ render_frame c inflate s (Z.of_nat k) target sel = Ok r) <->
   presentable f sel fr /\
   file_width f * file_height f * 4 <= zlen target /\ zlen r = zlen target /\
   skipn (Z.to_nat (file_width f * file_height f * 4)) r = skipn (Z.to_nat (file_width f * file_height f * 4)) target /\
   forall x y, 0 <= x < file_width f -> 0 <= y < file_height f ->
     exists back p, pixel (file_width f) target x y = Some back /\ pixel (file_width f) r x y = Some p /\
       displays f sel x y (filled fr) back p).
Proof.
  intros Hk Hb Hsep. rewrite (frame_looks c i raw f Hc Hi Ha kept_raw Hf inflate Hinf Hfit sel k fr target r Hk Hb Hsep).
  assert (Hp : parse_file c i = Ok f) by (apply parse_file_complete; eauto using kept_raw).
  assert (HL : (forall j cel, In (j, cel) (file_cels (f_frames f)) -> exists im, picture_of (f_frames f) cel im) -> exists s, load c i = Ok s)
    by (intro H; now apply (load_pictures c i f Hc Hi Ha Hp)).
  split.
  - intros (H1 & H2 & H3 & H4 & H5 & H6). destruct (HL H1) as [s Hs]. pose proof (pictures_good s k fr Hs Hk) as G.
    split; [split; [exact H1|]|].
    + intros cel l im Hcel Hl Him. split; [left; eauto|]. destruct (H2 cel l im Hcel Hl Him) as [image Hd]. exists image.
      now apply (G cel Hcel im Him).
    + repeat (split; [assumption|]). intros x y Hx Hy. destruct (H6 x y Hx Hy) as (back & p & P1 & P2 & P3). exists back, p.
      repeat (split; [assumption|]). apply (appears_displays inflate); [exact G|]. now apply looks_appears.
  - intros ((H1 & H2) & H3 & H4 & H5 & H6). destruct (HL H1) as [s Hs]. pose proof (pictures_good s k fr Hs Hk) as G.
    split; [exact H1|]. split.
    + intros cel l im Hcel Hl Him. destruct (H2 cel l im Hcel Hl Him) as [_ [image Hd]]. exists image.
      now apply (G cel Hcel im Him).
    + repeat (split; [assumption|]). intros x y Hx Hy. destruct (H6 x y Hx Hy) as (back & p & P1 & P2 & P3). exists back, p.
      repeat (split; [assumption|]). apply looks_appears; [exact Hsep|]. now apply appears_displays.
Qed.

Lemma pixels_display sel k fr target r s : nth_error (f_frames f) k = Some fr -> is_bytes target ->
  load c i = Ok s -> render_frame c inflate s (Z.of_nat k) target sel = Ok r ->
  forall x y, 0 <= x < file_width f -> 0 <= y < file_height f ->
    exists back p, pixel (file_width f) target x y = Some back /\ pixel (file_width f) r x y = Some p /\
      displays f sel x y (filled fr) back p.
Proof.
  intros Hk Hb Hs H x y Hx Hy.
  destruct (frame_appears c i raw f Hc Hi Ha kept_raw Hf inflate Hinf Hfit sel k fr target r s Hk Hb Hs H x y Hx Hy) as (back & p & P1 & P2 & P3).
  exists back, p. repeat (split; [assumption|]). apply (appears_displays inflate); [|exact P3]. exact (pictures_good s k fr Hs Hk).
Qed.

Lemma drawn_iff sel k fr target : nth_error (f_frames f) k = Some fr -> is_bytes target ->
  (debug c = true -> forall cel l, In cel (filled fr) -> on_layer (file_layers f) sel (cc_layer_index cel) = Some l -> separable (ly_blend_mode l)) ->
  ((exists s r, load c i = Ok s /\ render_frame c inflate s (Z.of_nat k) target sel = Ok r) <->
   presentable f sel fr /\ file_width f * file_height f * 4 <= zlen target).
Proof.
  intros Hk Hb Hd.
  assert (Hp : parse_file c i = Ok f) by (apply parse_file_complete; eauto using kept_raw).
  pose proof (load_pictures c i f Hc Hi Ha Hp) as HL.
  assert (Main : forall s, load c i = Ok s -> ((exists r, render_frame c inflate s (Z.of_nat k) target sel = Ok r) <->
      presentable f sel fr /\ file_width f * file_height f * 4 <= zlen target)).
  { intros s Hs. destruct (sprite_parts c i s Hc Hi Ha Hs) as (Hp' & El & Ei & N & HF).
    assert (E : af_file s = f) by congruence. pose proof (pictures_good s k fr Hs Hk) as G.
    assert (N' : NoDup (map fst (image_cels (f_frames f)))) by (rewrite <- E; exact N).
    assert (Hsf : exists sf, nth_error (af_frames s) k = Some sf /\ Forall2 (shows (f_frames f) (Z.of_nat k)) (filled fr) (sf_cels sf)).
    { rewrite E in HF. assert (Hn : nth_error (numbered 0 (f_frames f)) k = Some (Z.of_nat k, fr)).
      { rewrite numbered_nth, Hk. reflexivity. }
      revert HF Hn. generalize (Z.of_nat k) as kz. generalize k as n. generalize (numbered 0 (f_frames f)) as l. generalize (af_frames s) as l'.
      clear. intros l' l n kz H. revert n.
      induction H as [|[a b] sf l l' H _ IH]; intros [|n] Hn; cbn in Hn; try discriminate; [|now apply IH].
      injection Hn as -> ->. exists sf. split; [reflexivity|exact H]. }
    destruct Hsf as (sf & Hsf & HS).
    assert (HIn : forall x, In x (filled fr) -> In (Z.of_nat k, x) (file_cels (f_frames f))).
    { intros x Hx. apply file_cels_in. split; [lia|]. exists fr. rewrite Nat2Z.id. split; [exact Hk|exact Hx]. }
    assert (Hfit' : sprite_fits c s).
    { destruct Hfit as [F1 F2]. split; [unfold canvas_size, canvas_width, canvas_height; rewrite E; exact F1|].
      rewrite Ei, E. apply Forall_forall. intros im Him. apply in_map_iff in Him as ([[p l] im'] & <- & Him).
      apply image_cels_file in Him as (y & Hy & _ & Ec). exact (F2 p y _ Hy Ec). }
    assert (EC : canvas_size s = file_width f * file_height f * 4)
      by (unfold canvas_size, canvas_width, canvas_height; rewrite E; reflexivity).
    assert (HC : (forall cel l, In cel (sf_cels sf) -> drawn s sel cel = Some l ->
        (exists image, cel_image inflate s cel image) /\ known_mode (ly_blend_mode l)) <->
      (forall cel l im, In cel (filled fr) -> on_layer (file_layers f) sel (cc_layer_index cel) = Some l -> picture_of (f_frames f) cel im ->
        known_mode (ly_blend_mode l) /\ exists image, image_colours f im image)).
    { split.
      - intros H cel l im Hcel Hl Him. destruct (Forall2_in _ _ _ _ HS Hcel) as (fc & Hfc & Hsh).
        destruct (shows_picture_of _ _ _ _ N' (HIn cel Hcel) Hsh) as (im' & Hn & _ & Hu). pose proof Him as Him'. apply Hu in Him as ->.
        destruct (H fc l Hfc) as [(image & im & Hn' & Hdc) K].
        { rewrite (drawn_layer_of c i s Hc Hi Ha Hs sel (Z.of_nat k) cel fc); rewrite E; assumption. }
        rewrite Ei, E in Hn'. assert (im = im') as -> by congruence. rewrite E in Hdc. split; [exact K|].
        exists image. now apply (G cel Hcel).
      - intros H fc l Hfc Hl. destruct (Forall2_in_r _ _ _ _ HS Hfc) as (cel & Hcel & Hsh).
        destruct (shows_picture_of _ _ _ _ N' (HIn cel Hcel) Hsh) as (im & Hn & _ & Hu).
        rewrite (drawn_layer_of c i s Hc Hi Ha Hs sel (Z.of_nat k) cel fc) in Hl by (rewrite E; exact Hsh). rewrite E in Hl.
        assert (Him : picture_of (f_frames f) cel im) by now apply Hu.
        destruct (H cel l im Hcel Hl Him) as [K [image Hdc]]. split; [|exact K].
        exists image, im. rewrite Ei, E. split; [exact Hn|]. now apply (G cel Hcel). }
    assert (HP : presentable f sel fr <-> (forall cel l, In cel (sf_cels sf) -> drawn s sel cel = Some l ->
        (exists image, cel_image inflate s cel image) /\ known_mode (ly_blend_mode l))).
    { rewrite HC. unfold presentable. split; [tauto|]. intro H. split; [|exact H]. apply HL. eauto. }
    rewrite HP, <- EC. destruct (Z.leb_spec (canvas_size s) (zlen target)) as [Hsz|Hsz].
    - destruct (render_succeeds c i s Hc Hi Ha Hs inflate Hinf Hfit' sel k sf target Hsf Hb Hsz) as [R1 R2].
      split; [intro H; split; [now apply R1|exact Hsz]|]. intros [H _]. apply R2. intros cel l Hcel Hl.
      destruct (H cel l Hcel Hl) as [K1 K2]. split; [exact K1|]. split; [exact K2|]. intro Hdb.
      destruct (Forall2_in_r _ _ _ _ HS Hcel) as (x & Hx & Hsh). apply (Hd Hdb x l Hx).
      rewrite (drawn_layer_of c i s Hc Hi Ha Hs sel (Z.of_nat k) x cel) in Hl by (rewrite E; exact Hsh). now rewrite E in Hl.
    - split; [|intros [_ H]; lia]. intros [r H].
      rewrite (render_too_small c i s Hc Hi Ha Hs Hfit' inflate sel (Z.of_nat k) target Hsz) in H. discriminate. }
  split.
  - intros (s & r & Hs & H). apply (Main s Hs). eauto.
  - intros H. destruct (proj2 HL (proj1 (proj1 H))) as [s Hs]. destruct (proj2 (Main s Hs) H) as [r Hr']. eauto.
Qed.
End File.

Lemma raw_unkept c raw i : cfg_ok c -> is_bytes i -> raw_file_l (kept_error c) raw i -> raw_file_l area_bad raw i.
Proof. intros Hc Hi. apply raw_same; [|exact Hi]. intros. now apply (kept_first_mistake c). Qed.
