(** From the bytes of a file to the pixels of its frames; sharp pictures. *)
From Verif.Model Require Import Loader.
From Verif.Spec Require Import Bytes Format BlendSpec FileSpec LoaderSpec ImageSpec RenderSpec Composite Loads Looks.
From Verif.Proofs Require Import ParseLib RawFacts FileProps LoaderFacts LoaderProps FileFinal EditProps LoadsProps
  BlendProps ImageProps RenderFacts RenderProps CanvasProps ExactProps CompositeProps.

(** ** Pictures of cels *)
Lemma image_cels_file fs p l im : In ((p, l), im) (image_cels fs) <->
  exists y, In (p, y) (file_cels fs) /\ cc_layer_index y = l /\ cc_content y = CImage im.
Proof.
  unfold image_cels. rewrite in_flat_map. split.
  - intros ([k x] & Hin & Hx). destruct (cc_content x) eqn:Ec; try contradiction. destruct Hx as [[= -> <- ->]|[]]. eauto.
  - intros (y & Hy & <- & Ec). exists (p, y). split; [exact Hy|]. rewrite Ec. now left.
Qed.

Lemma image_key_once fs key im im' : NoDup (map fst (image_cels fs)) ->
  In (key, im) (image_cels fs) -> In (key, im') (image_cels fs) -> im = im'.
Proof.
  induction (image_cels fs) as [|[k v] l IH]; [contradiction|]. cbn [map fst]. intros N H H'. inversion N as [|? ? N1 N2]; subst.
  destruct H as [E|H], H' as [E'|H'].
  - congruence.
  - injection E as -> ->. destruct N1. apply in_map_iff. now exists (key, im').
  - injection E' as -> ->. destruct N1. apply in_map_iff. now exists (key, im).
  - now apply IH.
Qed.

Lemma shows_picture_of fs k x fc : NoDup (map fst (image_cels fs)) -> In (k, x) (file_cels fs) -> shows fs k x fc ->
  exists im, nth_error (map snd (image_cels fs)) (Z.to_nat (fc_image_index fc)) = Some im /\
    fc_size fc = (im_width im, im_height im) /\ forall im', picture_of fs x im' <-> im' = im.
Proof.
  intros N Hin (_ & _ & _ & p & im & Hp & Hn & Hs). exists im. split; [eapply nth_images, Hn|]. split; [exact Hs|].
  apply nth_error_In in Hn. intro im'. unfold source_frame in Hp. unfold picture_of. destruct (cc_content x) as [own|p'| |] eqn:Ec; try discriminate.
  - injection Hp as <-. assert (im = own) as ->; [|tauto].
    eapply image_key_once; [exact N|exact Hn|]. apply image_cels_file. eauto.
  - injection Hp as ->. rewrite <- image_cels_file. split; [|intros ->; exact Hn]. intro H.
    eapply image_key_once; eassumption.
Qed.

(** ** Loading *)
Lemma load_pictures c i f : cfg_ok c -> is_bytes i -> addressable c i -> parse_file c i = Ok f ->
  ((exists s, load c i = Ok s) <-> forall k cel, In (k, cel) (file_cels (f_frames f)) -> exists im, picture_of (f_frames f) cel im).
Proof.
  intros Hc Hi Ha Hp. pose proof (image_keys _ (parsed_wf c i f Hc Hi Ha Hp)) as N. split.
  - intros [s Hs] k cel Hin. apply load_exactly in Hs as Hx; try assumption. destruct Hx as (raw & Hr & Hf & _ & _ & _ & HF).
    assert (E : af_file s = f).
    { assert (parse_file c i = Ok (af_file s)) by (apply parse_file_complete; eauto). congruence. }
    rewrite E in HF. pose proof Hin as Hin'. unfold file_cels in Hin. apply in_flat_map in Hin as ([k' fr] & Hfr & Hx).
    apply in_map_iff in Hx as (x' & [= -> ->] & Hx). destruct (Forall2_in _ _ _ _ HF Hfr) as (sf & _ & _ & _ & HF2).
    destruct (Forall2_in _ _ _ _ HF2 Hx) as (fc & _ & Hsh).
    destruct (shows_picture_of _ _ _ _ N Hin' Hsh) as (im & _ & _ & Hu). exists im. now apply Hu.
  - intro H. assert (P : problems (f_frames f) = []).
    { unfold problems. apply flat_map_nil. intros [k x] Hx. destruct (H k x Hx) as [im Him].
      unfold picture_of in Him. unfold cel_problem. destruct (cc_content x) as [own|p| |]; try contradiction; [reflexivity|].
      replace (existsb _ _) with true; [reflexivity|]. symmetry. apply existsb_exists. exists ((p, cc_layer_index x), im).
      split; [now apply image_cels_file|]. cbn. now rewrite !Z.eqb_refl. }
    pose proof (build_sprite_outcome f) as HO. rewrite P in HO. destruct HO as [s Hs]. exists s.
    apply load_ok. destruct (build_sprite_ok _ _ Hs) as (Ef & _). rewrite Ef. split; [exact Hp|exact Hs].
Qed.

(** ** Pixels *)
Section Looks.
Context (c : cfg) (i : bytes) (s : ase_file).
Context (Hc : cfg_ok c) (Hi : is_bytes i) (Ha : addressable c i) (Hload : load c i = Ok s).
Context (inflate : inflater) (Hinf : inflate_ok inflate) (sel : layer_selection).
Let f := af_file s.

Lemma sprite_parts : parse_file c i = Ok f /\ af_layers s = file_layers f /\ af_images s = map snd (image_cels (f_frames f)) /\
  NoDup (map fst (image_cels (f_frames f))) /\
  Forall2 (fun '(k, fr) sf => Forall2 (shows (f_frames f) k) (filled fr) (sf_cels sf)) (numbered 0 (f_frames f)) (af_frames s).
Proof.
  apply load_exactly in Hload as Hx; try assumption. destruct Hx as (raw & Hr & Hf & El & _ & Ei & HF).
  assert (Hp : parse_file c i = Ok f) by (apply parse_file_complete; eauto).
  split; [exact Hp|]. split; [exact El|]. split; [exact Ei|]. split; [exact (image_keys _ (parsed_wf c i f Hc Hi Ha Hp))|].
  revert HF. apply Forall2_weaken. intros [k fr] sf (_ & _ & H). exact H.
Qed.

Lemma drawn_layer_of k x fc : shows (f_frames f) k x fc -> drawn s sel fc = on_layer (file_layers f) sel (cc_layer_index x).
Proof.
  destruct sprite_parts as (_ & El & _). intros (_ & E & _). unfold drawn, on_layer. now rewrite El, E.
Qed.

Lemma covers_spans x fc im px py : fc_origin fc = (cc_x x, cc_y x) -> fc_size fc = (im_width im, im_height im) ->
  covers fc px py = true <-> spans x im px py.
Proof.
  intros E1 E2. unfold covers, spans. rewrite E1, E2, !andb_true_iff, !Z.leb_le, !Z.ltb_lt. tauto.
Qed.

Lemma looks_composed px py k cels fcs : Forall2 (shows (f_frames f) k) cels fcs ->
  (forall x, In x cels -> In (k, x) (file_cels (f_frames f))) ->
  (forall x l, In x cels -> on_layer (file_layers f) sel (cc_layer_index x) = Some l -> separable (ly_blend_mode l)) ->
  forall back r, is_px back -> looks inflate f sel px py cels back r <-> composed c inflate s sel px py fcs back r.
Proof.
  destruct sprite_parts as (_ & El & Ei & N & _).
  induction 1 as [|x fc cels fcs Hsh HF IH]; intros HI Hsep back r Hb.
  - split; intro H; inversion H; subst; constructor.
  - specialize (IH (fun z Hz => HI z (or_intror Hz)) (fun z l Hz => Hsep z l (or_intror Hz))).
    destruct (shows_picture_of _ _ _ _ N (HI x (or_introl eq_refl)) Hsh) as (im & Hn & Es & Hu). rewrite <- Ei in Hn.
    pose proof (drawn_layer_of k x fc Hsh) as Ed. pose proof Hsh as (Eo & _).
    pose proof (covers_spans x fc im px py Eo Es) as Ec.
    assert (Himg : forall image, cel_image inflate s fc image <-> decoded inflate f im (repeat 0 (Z.to_nat (rgba_size im))) image).
    { intro image. unfold cel_image. split; [|intro H; now exists im]. intros (im' & Hn' & H). assert (im' = im) as -> by congruence. exact H. }
    assert (Hbytes : forall image front u v, cel_image inflate s fc image -> pixel (im_width im) image u v = Some front -> is_px front).
    { intros image front u v H1 H2. eapply pixel_px; [|exact H2]. exact (cel_image_bytes c i s Hc Hi Ha Hload inflate Hinf fc _ H1). }
    split; intro H.
    + inversion H as [|? ? ? ? H1 H2|? ? im' ? ? H1 H2 H3|? ? im' image l front mid ? ? H1 H2 H3 H4 H5 H6 H7]; subst.
      * apply composed_skip; [left; congruence|now apply IH].
      * apply Hu in H1 as ->. apply composed_skip; [right|now apply IH].
        destruct (covers fc px py); [|reflexivity]. destruct H2. now apply Ec.
      * apply Hu in H2 as ->. apply Himg in H4. pose proof (Hbytes _ _ _ _ H4 H5) as Hfr.
        assert (Ho : is_byte (ly_opacity l)).
        { eapply layer_opacity; [exact Hc|exact Hi|exact Ha|exact Hload|]. eapply drawn_layer. rewrite Ed. exact H1. }
        destruct (composite_iff (ly_blend_mode l) back front (ly_opacity l) (Hsep x l (or_introl eq_refl) H1) Hb Hfr Ho) as (m & Hm & Hiff & Hf).
        apply Hiff in H6 as ->. destruct (Hf c) as (g & E1 & E2).
        eapply composed_draw; [rewrite Ed; exact H1|now apply Ec|exact H4|rewrite Es, Eo; exact H5|exact E1|exact E2|now apply IH].
    + inversion H as [|? ? ? ? Hskip Hrest|? ? ? l image front g mid ? H1 H2 H3 H4 H5 H6 Hrest]; subst.
      * destruct Hskip as [Hd|Hcv]; [apply looks_hidden; [congruence|now apply IH]|].
        eapply looks_beside; [now apply Hu| |now apply IH]. intro Hsp. apply Ec in Hsp. congruence.
      * rewrite Ed in H1. rewrite Es, Eo in H4. pose proof (Hbytes _ _ _ _ H3 H4) as Hfr.
        assert (Ho : is_byte (ly_opacity l)).
        { eapply layer_opacity; [exact Hc|exact Hi|exact Ha|exact Hload|]. eapply drawn_layer. rewrite Ed. exact H1. }
        destruct (composite_iff (ly_blend_mode l) back front (ly_opacity l) (Hsep x l (or_introl eq_refl) H1) Hb Hfr Ho) as (m & Hm & Hiff & Hf).
        destruct (Hf c) as (g' & E1 & E2). assert (g' = g) as -> by congruence. assert (mid = m) as -> by congruence.
        apply (looks_drawn inflate f sel px py x cels im image l front m); [exact H1|now apply Hu|now apply Ec|now apply Himg|exact H4|now apply Hiff|now apply IH].
Qed.
End Looks.

Lemma frame_looks c i raw f : cfg_ok c -> is_bytes i -> addressable c i ->
  raw_file_l (kept_error c) raw i -> complete_file raw f ->
  forall inflate, inflate_ok inflate -> file_fits c f ->
  forall sel k fr target r, nth_error (f_frames f) k = Some fr -> is_bytes target ->
  (forall cel l, In cel (filled fr) -> on_layer (file_layers f) sel (cc_layer_index cel) = Some l -> separable (ly_blend_mode l)) ->
  ((exists s, load c i = Ok s /\ render_frame c inflate s (Z.of_nat k) target sel = Ok r) <->
   (forall j cel, In (j, cel) (file_cels (f_frames f)) -> exists im, picture_of (f_frames f) cel im) /\
   (forall cel l im, In cel (filled fr) -> on_layer (file_layers f) sel (cc_layer_index cel) = Some l -> picture_of (f_frames f) cel im ->
      exists image, decoded inflate f im (repeat 0 (Z.to_nat (rgba_size im))) image) /\
   file_width f * file_height f * 4 <= zlen target /\ zlen r = zlen target /\
   skipn (Z.to_nat (file_width f * file_height f * 4)) r = skipn (Z.to_nat (file_width f * file_height f * 4)) target /\
   forall x y, 0 <= x < file_width f -> 0 <= y < file_height f ->
     exists back p, pixel (file_width f) target x y = Some back /\ pixel (file_width f) r x y = Some p /\
       looks inflate f sel x y (filled fr) back p).
Proof.
  intros Hc Hi Ha Hr Hf inflate Hinf Hfit sel k fr t r Hk Hb Hsep.
  assert (Hp : parse_file c i = Ok f) by (apply parse_file_complete; eauto).
  pose proof (load_pictures c i f Hc Hi Ha Hp) as HL.
  assert (Main : forall s, load c i = Ok s ->
    (render_frame c inflate s (Z.of_nat k) t sel = Ok r <->
     (forall cel l im, In cel (filled fr) -> on_layer (file_layers f) sel (cc_layer_index cel) = Some l -> picture_of (f_frames f) cel im ->
        exists image, decoded inflate f im (repeat 0 (Z.to_nat (rgba_size im))) image) /\
     file_width f * file_height f * 4 <= zlen t /\ zlen r = zlen t /\
     skipn (Z.to_nat (file_width f * file_height f * 4)) r = skipn (Z.to_nat (file_width f * file_height f * 4)) t /\
     forall x y, 0 <= x < file_width f -> 0 <= y < file_height f ->
       exists back p, pixel (file_width f) t x y = Some back /\ pixel (file_width f) r x y = Some p /\
         looks inflate f sel x y (filled fr) back p)).
  { intros s Hs. destruct (sprite_parts c i s Hc Hi Ha Hs) as (Hp' & El & Ei & N & HF).
    assert (E : af_file s = f) by congruence.
    assert (N' : NoDup (map fst (image_cels (f_frames f)))) by (rewrite <- E; exact N).
    assert (Hsf : exists sf, nth_error (af_frames s) k = Some sf /\ Forall2 (shows (f_frames f) (Z.of_nat k)) (filled fr) (sf_cels sf)).
    { rewrite E in HF. assert (Hn : nth_error (numbered 0 (f_frames f)) k = Some (Z.of_nat k, fr)).
      { rewrite numbered_nth, Hk. reflexivity. }
      revert HF Hn. generalize (Z.of_nat k) as kz. generalize k as n. generalize (numbered 0 (f_frames f)) as l. generalize (af_frames s) as l'.
      clear. intros l' l n kz H. revert n.
      induction H as [|[a b] sf l l' H _ IH]; intros [|n] Hn; cbn in Hn; try discriminate; [|now apply IH].
      injection Hn as -> ->. exists sf. split; [reflexivity|exact H]. }
    destruct Hsf as (sf & Hsf & HS).
    assert (HIn : forall x, In x (filled fr) -> In (Z.of_nat k, x) (file_cels (f_frames f))).
    { intros x Hx. apply file_cels_in. split; [lia|]. exists fr. rewrite Nat2Z.id. split; [exact Hk|exact Hx]. }
    assert (Hfit' : sprite_fits c s).
    { destruct Hfit as [F1 F2]. split; [unfold canvas_size, canvas_width, canvas_height; rewrite E; exact F1|].
      rewrite Ei, E. apply Forall_forall. intros im Him. apply in_map_iff in Him as ([[p l] im'] & <- & Him).
      apply image_cels_file in Him as (y & Hy & _ & Ec). exact (F2 p y _ Hy Ec). }
    rewrite (render_exactly c i s Hc Hi Ha Hs inflate Hinf Hfit' sel k sf t r Hsf Hb).
    unfold canvas_size, canvas_width, canvas_height. rewrite E. fold (file_width f) (file_height f).
    assert (HC : (forall cel l, In cel (sf_cels sf) -> drawn s sel cel = Some l ->
        (exists image, cel_image inflate s cel image) /\ known_mode (ly_blend_mode l)) <->
      (forall cel l im, In cel (filled fr) -> on_layer (file_layers f) sel (cc_layer_index cel) = Some l -> picture_of (f_frames f) cel im ->
        exists image, decoded inflate f im (repeat 0 (Z.to_nat (rgba_size im))) image)).
    { split.
      - intros H cel l im Hcel Hl Him. destruct (Forall2_in _ _ _ _ HS Hcel) as (fc & Hfc & Hsh).
        destruct (shows_picture_of _ _ _ _ N' (HIn cel Hcel) Hsh) as (im' & Hn & _ & Hu). apply Hu in Him as ->.
        destruct (H fc l Hfc) as [(image & im & Hn' & Hd) _].
        { rewrite (drawn_layer_of c i s Hc Hi Ha Hs sel (Z.of_nat k) cel fc); rewrite E; assumption. }
        rewrite Ei, E in Hn'. assert (im = im') as -> by congruence. rewrite E in Hd. eauto.
      - intros H fc l Hfc Hl. destruct (Forall2_in_r _ _ _ _ HS Hfc) as (cel & Hcel & Hsh).
        destruct (shows_picture_of _ _ _ _ N' (HIn cel Hcel) Hsh) as (im & Hn & _ & Hu).
        rewrite (drawn_layer_of c i s Hc Hi Ha Hs sel (Z.of_nat k) cel fc) in Hl by (rewrite E; exact Hsh). rewrite E in Hl.
        split; [|left; exact (Hsep cel l Hcel Hl)]. destruct (H cel l im Hcel Hl) as [image Hd]; [now apply Hu|].
        exists image, im. rewrite Ei, E. split; [exact Hn|exact Hd]. }
    assert (HQ : forall x y back p, is_px back -> looks inflate f sel x y (filled fr) back p <-> composed c inflate s sel x y (sf_cels sf) back p).
    { intros x y back p Hp0. rewrite <- E. apply (looks_composed c i s Hc Hi Ha Hs inflate Hinf sel x y (Z.of_nat k)); try assumption;
        rewrite E; assumption. }
    assert (HB : forall x y back, pixel (file_width f) t x y = Some back -> is_px back) by (intros; eapply pixel_px; eassumption).
    split.
    - intros (H1 & H2 & H3 & H4 & H5). split; [now apply HC|]. split; [exact H1|]. split; [exact H2|]. split; [exact H3|].
      intros x y Hx Hy. destruct (H5 x y Hx Hy) as (back & p & P1 & P2 & P3). exists back, p. split; [exact P1|]. split; [exact P2|].
      apply HQ; [eauto|exact P3].
    - intros (H4 & H1 & H2 & H3 & H5). split; [exact H1|]. split; [exact H2|]. split; [exact H3|]. split; [now apply HC|].
      intros x y Hx Hy. destruct (H5 x y Hx Hy) as (back & p & P1 & P2 & P3). exists back, p. split; [exact P1|]. split; [exact P2|].
      apply HQ; [eauto|exact P3]. }
  split.
  - intros (s & Hs & Hrd). split; [apply HL; eauto|]. now apply (Main s Hs).
  - intros (H & Rest). apply HL in H as [s Hs]. exists s. split; [exact Hs|]. now apply (Main s Hs).
Qed.

(** ** Sharp pictures *)
Section Sharp.
Context (c : cfg) (i : bytes) (s : ase_file).
Context (Hc : cfg_ok c) (Hi : is_bytes i) (Ha : addressable c i) (Hload : load c i = Ok s).
Context (inflate : inflater) (Hinf : inflate_ok inflate) (sel : layer_selection).

Lemma cel_pixel_px cel x y p : cel_pixel inflate s cel x y p -> is_px p.
Proof.
  intros (_ & image & Him & Hp). eapply pixel_px; [|exact Hp]. exact (cel_image_bytes c i s Hc Hi Ha Hload inflate Hinf cel _ Him).
Qed.
Lemma cel_pixel_unique cel x y p q : cel_pixel inflate s cel x y p -> cel_pixel inflate s cel x y q -> p = q.
Proof.
  intros (_ & image & Him & Hp) (_ & image' & Him' & Hq). assert (image' = image) as -> by (eapply cel_image_unique; eassumption). congruence.
Qed.

(** Transparent pixels leave visible ones alone, whatever the blend mode. *)
Lemma transparent_drawn m f back front o r : is_px back -> is_px front -> is_byte o -> pa back <> 0 -> pa front = 0 ->
  blend_mode_to_blend_fn c m = Ok f -> f back front o = Ok r -> r = back.
Proof.
  intros Hb Hf Ho Hz F E Hr.
  assert (K : separable m \/ hsl m) by (destruct m; cbn in *; try discriminate E; auto).
  destruct K as [K|K].
  - destruct (transparent_front m back front o K Hb Hf Ho Hz F c) as (f' & E' & H'). congruence.
  - destruct (hsl_outcomes m back front o K Hb Hf Ho) as (q & _ & HR & HD).
    assert (q = back) as ->.
    { destruct (HR {| debug := false; usize_bits := 64 |} eq_refl) as (g & Eg & Hg).
      destruct (hsl_transparent m back front o K Hb Hf Ho Hz F {| debug := false; usize_bits := 64 |} eq_refl) as (g' & Eg' & Hg'). congruence. }
    destruct (debug c) eqn:D.
    + destruct (HD c D) as (f' & E' & [H'|H']); congruence.
    + destruct (HR c D) as (f' & E' & H'). congruence.
Qed.
Lemma composed_transparent x y cels :
  (forall cel l p, In cel cels -> drawn s sel cel = Some l -> cel_pixel inflate s cel x y p -> pa p = 0) ->
  forall back r, is_px back -> composed c inflate s sel x y cels back r ->
  (pa back <> 0 -> r = back) /\ (pa back = 0 -> pa r = 0).
Proof.
  induction cels as [|cel cels IH]; intros H back r Hb Hr; [inversion Hr; subst; tauto|].
  assert (H' : forall cel' l p, In cel' cels -> drawn s sel cel' = Some l -> cel_pixel inflate s cel' x y p -> pa p = 0)
    by (intros cel' l p Hin; apply H; now right).
  inversion Hr as [|? ? ? ? Hskip Hrest|? ? ? l image front f mid ? H1 H2 H3 H4 H5 H6 Hrest]; subst; [now apply IH|].
  assert (Hcp : cel_pixel inflate s cel x y front) by (split; [exact H2|eauto]).
  pose proof (H cel l front (or_introl eq_refl) H1 Hcp) as Hz. pose proof (cel_pixel_px _ _ _ _ Hcp) as Hf.
  assert (Ho : is_byte (ly_opacity l)).
  { eapply layer_opacity; [exact Hc|exact Hi|exact Ha|exact Hload|]. eapply drawn_layer; exact H1. }
  assert (Hmid : is_px mid).
  { pose proof (mode_fn c (ly_blend_mode l) f back front (ly_opacity l) Hb Hf Ho H5) as G. now rewrite H6 in G. }
  destruct (IH H' mid r Hmid Hrest) as [I1 I2]. destruct (Z.eqb_spec (pa back) 0) as [E|E].
  - split; [contradiction|]. intros _. apply I2. rewrite (transparent_back _ _ front (ly_opacity l) c f E H5) in H6.
    destruct (normal_laws c back front (ly_opacity l) Hb Hf Ho) as (q & Eq & _ & _ & _ & _ & Hq & _). rewrite Eq in H6. injection H6 as ->.
    destruct (Hq E) as (_ & _ & _ & R). unfold rounded in R. rewrite Hz in R. lia.
  - split; [|contradiction]. intros _. assert (mid = back) as -> by (exact (transparent_drawn _ f back front _ mid Hb Hf Ho E Hz H5 H6)). now apply I1.
Qed.

(** One step of sharp drawing *)
Definition art (back front : px) : px := if pa front =? 0 then if pa back =? 0 then front else back else front.
Lemma normal_art back front : is_px back -> is_px front -> pa front = 0 \/ pa front = 255 ->
  normal c back front 255 = Ok (art back front).
Proof.
  intros Hb Hf Hz. assert (Ho : is_byte 255) by (unfold is_byte; lia).
  destruct (normal_laws c back front 255 Hb Hf Ho) as (r & Er & _ & L1 & L2 & _ & L3 & _). rewrite Er. f_equal. unfold art.
  destruct Hz as [Z0|Z1]; [rewrite Z0; cbn [Z.eqb]|rewrite Z1; cbn [Z.eqb]; now apply L1].
  destruct (Z.eqb_spec (pa back) 0) as [E|E]; [|now apply L2]. destruct (L3 E) as (P1 & P2 & P3 & P4).
  unfold rounded in P4. destruct r, front. cbn in *. subst. f_equal. lia.
Qed.
Lemma art_px back front : is_px back -> is_px front -> is_px (art back front).
Proof. intros. unfold art. destruct (_ =? 0); [|assumption]. now destruct (_ =? 0). Qed.

Lemma composed_art x y cels : sharp inflate s sel cels -> forall b0 r0, is_px b0 -> composed c inflate s sel x y cels b0 r0 ->
  exists fronts, Forall is_px fronts /\
    forall back r, is_px back -> (composed c inflate s sel x y cels back r <-> r = fold_left art fronts back).
Proof.
  induction cels as [|cel cels IH]; intros HS b0 r0 Hb0 H0.
  - exists []. split; [constructor|]. intros back r _. cbn. split; [intro H; now inversion H|intros ->; constructor].
  - assert (HS' : sharp inflate s sel cels) by (intros cel' l Hin; apply HS; now right).
    inversion H0 as [|? ? ? ? Hskip Hrest|? ? ? l image front f mid ? H1 H2 H3 H4 H5 H6 Hrest]; subst.
    + destruct (IH HS' b0 r0 Hb0 Hrest) as (fronts & HF & Hiff). exists fronts. split; [exact HF|]. intros back r Hb.
      rewrite <- Hiff by exact Hb. split; [|intro H; now apply composed_skip].
      intro H. inversion H; subst; [assumption|]. destruct Hskip; congruence.
    + assert (Hcp : cel_pixel inflate s cel x y front) by (split; [exact H2|eauto]). pose proof (cel_pixel_px _ _ _ _ Hcp) as Hf.
      destruct (HS cel l (or_introl eq_refl) H1) as (Em & Eo & Hz). specialize (Hz x y front Hcp).
      rewrite Em in H5. injection H5 as <-. rewrite Eo in H6. rewrite normal_art in H6 by assumption. injection H6 as <-.
      destruct (IH HS' _ r0 (art_px _ _ Hb0 Hf) Hrest) as (fronts & HF & Hiff).
      exists (front :: fronts). split; [now constructor|]. intros back r Hb. cbn [fold_left]. rewrite <- Hiff by now apply art_px.
      split.
      * intro H. inversion H as [|? ? ? ? Hskip Hrest'|? ? ? l' image' front' f' mid' ? G1 G2 G3 G4 G5 G6 Hrest']; subst; [destruct Hskip; congruence|].
        assert (l' = l) as -> by congruence. assert (front' = front) as -> by (eapply cel_pixel_unique; [split|]; eauto).
        rewrite Em in G5. injection G5 as <-. rewrite Eo, normal_art in G6 by assumption. injection G6 as <-. exact Hrest'.
      * intro H. eapply composed_draw; [exact H1|exact H2|exact H3|exact H4|rewrite Em; reflexivity| |exact H].
        rewrite Eo. now apply normal_art.
Qed.

Lemma art_none fronts : forall b g, pa (fold_left art fronts b) = 0 -> pa g = 0 -> pa (fold_left art fronts g) = 0.
Proof.
  induction fronts as [|f fronts IH]; intros b g H Hg; [exact Hg|]. cbn [fold_left] in *. apply (IH (art b f)); [exact H|].
  unfold art. rewrite Hg. cbn [Z.eqb]. destruct (Z.eqb_spec (pa f) 0) as [E|E]; [exact E|]. exfalso.
  assert (G : forall fs q, pa q <> 0 -> pa (fold_left art fs q) <> 0).
  { clear. induction fs as [|f fs IH]; intros q Hq; [exact Hq|]. cbn [fold_left]. apply IH. unfold art.
    destruct (Z.eqb_spec (pa f) 0); [|assumption]. destruct (Z.eqb_spec (pa q) 0); [contradiction|exact Hq]. }
  apply (G fronts (art b f)); [|exact H]. unfold art. destruct (Z.eqb_spec (pa f) 0); [contradiction|exact E].
Qed.
Lemma art_again fronts b : fold_left art fronts (fold_left art fronts b) = fold_left art fronts b.
Proof.
  induction fronts as [|g fronts IH] using rev_ind; [reflexivity|]. rewrite !fold_left_app. cbn [fold_left].
  assert (A0 : pa g = 0 -> forall z, art z g = if pa z =? 0 then g else z) by (intros E z; unfold art; now rewrite E).
  assert (A1 : pa g <> 0 -> forall z, art z g = g) by (intros E z; unfold art; destruct (Z.eqb_spec (pa g) 0); [contradiction|reflexivity]).
  destruct (Z.eq_dec (pa g) 0) as [E|E]; [|rewrite !(A1 E); reflexivity]. rewrite !(A0 E).
  destruct (Z.eqb_spec (pa (fold_left art fronts b)) 0) as [Z0|Z0].
  - now rewrite (art_none fronts b g Z0 E).
  - rewrite IH. destruct (Z.eqb_spec (pa (fold_left art fronts b)) 0); [contradiction|reflexivity].
Qed.

Context (Hfit : sprite_fits c s) (k : nat) (sf : sframe) (Hk : nth_error (api_frames s) k = Some sf).

Lemma topmost_shown t r x y a cel b l p : is_bytes t -> render_frame c inflate s (Z.of_nat k) t sel = Ok r ->
  0 <= x < canvas_width s -> 0 <= y < canvas_height s -> sf_cels sf = a ++ cel :: b ->
  drawn s sel cel = Some l -> ly_blend_mode l = BNormal -> ly_opacity l = 255 -> cel_pixel inflate s cel x y p -> pa p = 255 ->
  (forall cel' l' q, In cel' b -> drawn s sel cel' = Some l' -> cel_pixel inflate s cel' x y q -> pa q = 0) ->
  pixel (canvas_width s) r x y = Some p.
Proof.
  intros Hb Hr Hx Hy E Hd Hm Ho Hcp Hal Hn. pose proof Hcp as (Hcov & image & Himg & Hpx).
  destruct (render_composes c i s Hc Hi Ha Hload inflate Hinf Hfit sel k sf t r Hk Hb Hr x y Hx Hy) as (back & q & H1 & H2 & H3).
  rewrite H2. f_equal. rewrite E in H3. apply composed_app in H3 as (m & G1 & G2).
  assert (Hmp : is_px m).
  { apply (composed_invariant c i s Hc Hi Ha Hload inflate Hinf sel (fun _ _ => True) x y a) with (back := back); auto. exact (pixel_px _ _ _ _ _ Hb H1). }
  pose proof (composed_opaque c i s Hc Hi Ha Hload inflate Hinf sel x y cel l image p b m q Hmp Hd Hm Ho Hcov Himg Hpx Hal G2) as G3.
  apply (composed_transparent x y b Hn p q); [eapply cel_pixel_px; exact Hcp|exact G3|lia].
Qed.

Lemma nothing_shown t r x y : is_bytes t -> render_frame c inflate s (Z.of_nat k) t sel = Ok r ->
  0 <= x < canvas_width s -> 0 <= y < canvas_height s ->
  (forall cel l q, In cel (sf_cels sf) -> drawn s sel cel = Some l -> cel_pixel inflate s cel x y q -> pa q = 0) ->
  exists back p, pixel (canvas_width s) t x y = Some back /\ pixel (canvas_width s) r x y = Some p /\
    (pa back <> 0 -> p = back) /\ (pa back = 0 -> pa p = 0).
Proof.
  intros Hb Hr Hx Hy Hn.
  destruct (render_composes c i s Hc Hi Ha Hload inflate Hinf Hfit sel k sf t r Hk Hb Hr x y Hx Hy) as (back & q & H1 & H2 & H3).
  exists back, q. split; [exact H1|]. split; [exact H2|].
  apply (composed_transparent x y _ Hn back q); [exact (pixel_px _ _ _ _ _ Hb H1)|exact H3].
Qed.

Lemma drawn_again t r : is_bytes t -> sharp inflate s sel (sf_cels sf) ->
  render_frame c inflate s (Z.of_nat k) t sel = Ok r -> render_frame c inflate s (Z.of_nat k) r sel = Ok r.
Proof.
  intros Hb HS Hr. assert (Hbr : is_bytes r).
  { assert (Hle : canvas_size s <= zlen t).
    { destruct (Z.ltb_spec (zlen t) (canvas_size s)) as [H|H]; [|exact H].
      rewrite (render_too_small c i s Hc Hi Ha Hload Hfit inflate sel (Z.of_nat k) t H) in Hr. discriminate. }
    pose proof (render_buffer c i s Hc Hi Ha Hload inflate Hinf Hfit sel k sf t Hk Hb Hle) as B. rewrite Hr in B. apply B. }
  apply (render_exactly c i s Hc Hi Ha Hload inflate Hinf Hfit sel k sf t r Hk Hb) in Hr as (Hle & L & S & D & V).
  apply (render_exactly c i s Hc Hi Ha Hload inflate Hinf Hfit sel k sf r r Hk Hbr).
  split; [lia|]. split; [reflexivity|]. split; [reflexivity|]. split; [exact D|].
  intros x y Hx Hy. destruct (V x y Hx Hy) as (back & p & P1 & P2 & C). exists p, p. split; [exact P2|]. split; [exact P2|].
  pose proof (pixel_px _ _ _ _ _ Hb P1) as Bb. pose proof (pixel_px _ _ _ _ _ Hbr P2) as Bp.
  destruct (composed_art x y _ HS back p Bb C) as (fronts & _ & Hiff). apply Hiff; [exact Bp|].
  apply Hiff in C; [|exact Bb]. subst p. symmetry. apply art_again.
Qed.
End Sharp.

Lemma looks_unique c i s : cfg_ok c -> is_bytes i -> addressable c i -> load c i = Ok s ->
  forall inflate, inflate_ok inflate -> forall sel k fr, nth_error (f_frames (af_file s)) k = Some fr ->
  (forall cel l, In cel (filled fr) -> on_layer (file_layers (af_file s)) sel (cc_layer_index cel) = Some l -> separable (ly_blend_mode l)) ->
  forall x y back p q, is_px back -> looks inflate (af_file s) sel x y (filled fr) back p ->
  looks inflate (af_file s) sel x y (filled fr) back q -> p = q.
Proof.
  intros Hc Hi Ha Hl inflate Hinf sel k fr Hk Hsep x y back p q Hb.
  destruct (sprite_parts c i s Hc Hi Ha Hl) as (_ & _ & _ & _ & HF).
  assert (Hin : In (Z.of_nat k, fr) (numbered 0 (f_frames (af_file s)))).
  { apply numbered_in. rewrite Z.sub_0_r, Nat2Z.id. split; [lia|exact Hk]. }
  destruct (Forall2_in _ _ _ _ HF Hin) as (sf & _ & HS).
  assert (HIn : forall x, In x (filled fr) -> In (Z.of_nat k, x) (file_cels (f_frames (af_file s)))).
  { intros z Hz. apply file_cels_in. split; [lia|]. exists fr. rewrite Nat2Z.id. split; [exact Hk|exact Hz]. }
  rewrite !(looks_composed c i s Hc Hi Ha Hl inflate Hinf sel x y (Z.of_nat k) _ _ HS HIn Hsep back) by exact Hb.
  apply composed_unique.
Qed.
