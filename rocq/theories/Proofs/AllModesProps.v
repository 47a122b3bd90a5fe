(** What a file looks like, with all blend modes. *)
From Verif.Model Require Import Loader.
From Verif.Spec Require Import Bytes Format BlendSpec HslSpec FileSpec LoaderSpec ImageSpec RenderSpec Composite Loads Looks AllModes.
From Verif.Proofs Require Import ParseLib RawFacts FileProps LoaderFacts LoaderProps FileFinal EditProps LoadsProps
  BlendFacts BlendProps HslProps ImageProps RenderFacts RenderProps CanvasProps ExactProps CompositeProps LooksProps.

(** ** One pixel *)
Lemma mixed_iff x y o q : is_px x -> is_px y -> is_byte o -> pa x <> 0 -> pa y <> 0 ->
  mixed x y o q <-> q = merge_px x y o.
Proof.
  intros (X1 & X2 & X3 & X4) (Y1 & Y2 & Y3 & Y4) Ho Zx Zy. unfold mixed, merge_px. rewrite !partway_iff by assumption.
  pose proof (mix_between (pa x) (pa y) o X4 Y4 Ho) as B.
  assert (Hz : mix (pa x) (pa y) o <> 0) by (unfold BlendSpec.between, is_byte in *; lia).
  destruct (Z.eqb_spec (mix (pa x) (pa y) o) 0); [contradiction|].
  destruct (Z.eqb_spec (pa x) 0); [contradiction|]. destruct (Z.eqb_spec (pa y) 0); [contradiction|]. split.
  - intros (H1 & H2 & H3 & H4). rewrite (px_eta q). now rewrite H1, H2, H3, H4.
  - intros ->. repeat split; reflexivity.
Qed.

Lemma merge_alpha x y o : is_px x -> is_px y -> is_byte o -> pa x <> 0 -> pa y <> 0 -> pa (merge_px x y o) <> 0.
Proof.
  intros Hx Hy Ho Zx Zy. pose proof (proj2 (mixed_iff x y o _ Hx Hy Ho Zx Zy) eq_refl) as (_ & _ & _ & P).
  assert (X4 : is_byte (pa x)) by apply Hx. assert (Y4 : is_byte (pa y)) by apply Hy.
  apply partway_iff in P; try assumption. rewrite P. pose proof (mix_between (pa x) (pa y) o X4 Y4 Ho) as B.
  unfold BlendSpec.between, is_byte in *; lia.
Qed.

Lemma hsl_composite_blend m back front p o : is_px back -> is_px front -> is_px p -> is_byte o ->
  unscaled m back front p -> pa p = (256 - pa front) mod 256 -> hsl_composite m back front o (blend_px back front p o).
Proof.
  intros Hb Hf Hp Ho U Ea. exists (normal_px back front o). split; [now apply over_iff|]. unfold blend_px.
  destruct (Z.eqb_spec (pa back) 0) as [|Hz]; [reflexivity|].
  assert (Bb : is_byte (pa back)) by apply Hb. pose proof (fa_byte _ _ Hf Ho) as Bs.
  assert (Bboth : is_byte (div255 (pa back * div255 (pa front * o)))) by (apply div255_byte, prod_byte; assumption).
  pose proof (normal_px_byte _ _ _ Hb Hf Ho) as N1. pose proof (normal_px_byte _ _ _ Hb Hp Ho) as N2.
  pose proof (normal_px_alpha_ge back front o Hb Hf Ho) as G1. pose proof (normal_px_alpha_ge back p o Hb Hp Ho) as G2.
  assert (Z1 : pa (normal_px back front o) <> 0) by (unfold is_byte in *; lia).
  assert (Z2 : pa (normal_px back p o) <> 0) by (unfold is_byte in *; lia).
  exists p, (normal_px back p o), (merge_px (normal_px back front o) (normal_px back p o) (pa back)),
    (div255 (pa front * o)), (div255 (pa back * div255 (pa front * o))).
  split; [exact Hp|]. split; [exact U|]. split; [exact Ea|]. split; [now apply over_iff|].
  split; [apply div255_rounded, prod_byte; [apply Hf|exact Ho]|]. split; [apply div255_rounded, prod_byte; assumption|].
  split; [now apply mixed_iff|]. apply mixed_iff; try assumption; try reflexivity; [now apply merge_px_byte|now apply merge_alpha].
Qed.

Lemma any_pixel m back front o : known_mode m -> is_px back -> is_px front -> is_byte o ->
  exists r, is_px r /\ any_composite m back front o r /\
    (forall c, debug c = false -> exists f, blend_mode_to_blend_fn c m = Ok f /\ f back front o = Ok r) /\
    (forall c, debug c = true -> exists f, blend_mode_to_blend_fn c m = Ok f /\
       ((hsl m /\ f back front o = Panic PDebugAssert) \/ f back front o = Ok r)).
Proof.
  intros Hm Hb Hf Ho. destruct Hm as [S|S].
  - destruct (composite_iff m back front o S Hb Hf Ho) as (r & Hr & Hi & H). exists r. split; [exact Hr|]. split.
    { assert (K : composite m back front o r) by now apply Hi. destruct m; try contradiction; exact K. }
    split; intros c _; destruct (H c) as (f & E & G); exists f; auto.
  - destruct (hsl_channels m back front S Hb Hf) as (p & Hp & Ea & U & HR).
    destruct (hsl_outcomes m back front o S Hb Hf Ho) as (r & Hr & R1 & R2).
    assert (E : r = blend_px back front p o).
    { destruct (HR {| debug := false; usize_bits := 64 |} eq_refl) as (f & E1 & G1). destruct (R1 {| debug := false; usize_bits := 64 |} eq_refl) as (f' & E2 & G2).
      rewrite E1 in E2. injection E2 as <-. rewrite (G1 o Ho) in G2. now injection G2. }
    exists r. split; [exact Hr|]. split.
    { assert (K : hsl_composite m back front o r) by (subst r; now apply hsl_composite_blend).
      destruct m; try contradiction; exact K. }
    split; [exact R1|]. intros c Hc. destruct (R2 c Hc) as (f & E1 & [E2|E2]); exists f; auto.
Qed.

Lemma any_result c m f back front o r : is_px back -> is_px front -> is_byte o -> blend_mode_to_blend_fn c m = Ok f ->
  f back front o = Ok r -> is_px r /\ any_composite m back front o r.
Proof.
  intros Hb Hf Ho E H. assert (Hm : known_mode m) by (unfold known_mode; destruct m; try discriminate; cbn; tauto).
  destruct (any_pixel m back front o Hm Hb Hf Ho) as (r' & Hr & Hc & R1 & R2).
  assert (r' = r) as ->; [|auto]. destruct (debug c) eqn:D.
  - destruct (R2 c D) as (f' & E' & [[_ G]|G]); rewrite E in E'; injection E' as <-; congruence.
  - destruct (R1 c D) as (f' & E' & G); rewrite E in E'; injection E' as <-; congruence.
Qed.

(** ** Frames *)
Lemma appears_composed c i s : cfg_ok c -> is_bytes i -> addressable c i -> load c i = Ok s ->
  forall inflate, inflate_ok inflate -> forall sel px py k cels fcs, Forall2 (shows (f_frames (af_file s)) k) cels fcs ->
  (forall x, In x cels -> In (k, x) (file_cels (f_frames (af_file s)))) ->
  forall back r, is_px back -> composed c inflate s sel px py fcs back r -> appears inflate (af_file s) sel px py cels back r.
Proof.
  intros Hc Hi Ha Hl inflate Hinf sel px py k cels fcs HF. destruct (sprite_parts c i s Hc Hi Ha Hl) as (_ & El & Ei & N & _).
  induction HF as [|x fc cels fcs Hsh HF IH]; intros HI back r Hb H.
  - inversion H; subst; constructor.
  - specialize (IH (fun z Hz => HI z (or_intror Hz))).
    destruct (shows_picture_of _ _ _ _ N (HI x (or_introl eq_refl)) Hsh) as (im & Hn & Es & Hu). rewrite <- Ei in Hn.
    pose proof (drawn_layer_of c i s Hc Hi Ha Hl sel k x fc Hsh) as Ed. pose proof Hsh as (Eo & _).
    pose proof (covers_spans x fc im px py Eo Es) as Ec.
    inversion H as [|? ? ? ? Hskip Hrest|? ? ? l image front g mid ? H1 H2 H3 H4 H5 H6 Hrest]; subst.
    + destruct Hskip as [Hd|Hcv]; [apply appears_hidden; [congruence|now apply IH]|].
      eapply appears_beside; [now apply Hu| |now apply IH]. intro Hsp. apply Ec in Hsp. congruence.
    + assert (Ho : is_byte (ly_opacity l)).
      { eapply layer_opacity; [exact Hc|exact Hi|exact Ha|exact Hl|]. eapply drawn_layer. exact H1. }
      assert (Hfr : is_px front).
      { eapply pixel_px; [|exact H4]. exact (cel_image_bytes c i s Hc Hi Ha Hl inflate Hinf fc _ H3). }
      rewrite Ed in H1. rewrite Es, Eo in H4. destruct (any_result c _ g back front _ mid Hb Hfr Ho H5 H6) as [Hmid Hcomp].
      apply (appears_drawn inflate (af_file s) sel px py x cels im image l front mid); auto.
      * now apply Hu.
      * now apply Ec.
      * destruct H3 as (im' & Hn' & Hd). assert (im' = im) as -> by congruence. exact Hd.
Qed.

Lemma frame_appears c i raw f : cfg_ok c -> is_bytes i -> addressable c i ->
  raw_file_l (kept_error c) raw i -> complete_file raw f ->
  forall inflate, inflate_ok inflate -> file_fits c f ->
  forall sel k fr target r s, nth_error (f_frames f) k = Some fr -> is_bytes target ->
  load c i = Ok s -> render_frame c inflate s (Z.of_nat k) target sel = Ok r ->
  forall x y, 0 <= x < file_width f -> 0 <= y < file_height f ->
    exists back p, pixel (file_width f) target x y = Some back /\ pixel (file_width f) r x y = Some p /\
      appears inflate f sel x y (filled fr) back p.
Proof.
  intros Hc Hi Ha Hr Hf inflate Hinf Hfit sel k fr t r s Hk Hb Hs H x y Hx Hy.
  assert (Hp : parse_file c i = Ok f) by (apply parse_file_complete; eauto).
  destruct (sprite_parts c i s Hc Hi Ha Hs) as (Hp' & El & Ei & N & HF).
  assert (E : af_file s = f) by congruence.
  assert (Hsf : exists sf, nth_error (af_frames s) k = Some sf /\ Forall2 (shows (f_frames f) (Z.of_nat k)) (filled fr) (sf_cels sf)).
  { rewrite E in HF. assert (Hn : nth_error (numbered 0 (f_frames f)) k = Some (Z.of_nat k, fr)).
    { rewrite numbered_nth, Hk. reflexivity. }
    revert HF Hn. generalize (Z.of_nat k) as kz. generalize k as n. generalize (numbered 0 (f_frames f)) as l. generalize (af_frames s) as l'.
    clear. intros l' l n kz H. revert n.
    induction H as [|[a b] sf l l' H _ IH]; intros [|n] Hn; cbn in Hn; try discriminate; [|now apply IH].
    injection Hn as -> ->. exists sf. split; [reflexivity|exact H]. }
  destruct Hsf as (sf & Hsf & HS).
  assert (HIn : forall x, In x (filled fr) -> In (Z.of_nat k, x) (file_cels (f_frames f))).
  { intros z Hz. apply file_cels_in. split; [lia|]. exists fr. rewrite Nat2Z.id. split; [exact Hk|exact Hz]. }
  assert (Hfit' : sprite_fits c s).
  { destruct Hfit as [F1 F2]. split; [unfold canvas_size, canvas_width, canvas_height; rewrite E; exact F1|].
    rewrite Ei, E. apply Forall_forall. intros im Him. apply in_map_iff in Him as ([[p l] im'] & <- & Him).
    apply image_cels_file in Him as (z & Hz & _ & Ec). exact (F2 p z _ Hz Ec). }
  apply (render_exactly c i s Hc Hi Ha Hs inflate Hinf Hfit' sel k sf t r Hsf Hb) in H.
  unfold canvas_size, canvas_width, canvas_height in H. rewrite E in H. destruct H as (_ & _ & _ & _ & H).
  destruct (H x y Hx Hy) as (back & p & P1 & P2 & P3). exists back, p. split; [exact P1|]. split; [exact P2|].
  rewrite <- E. apply (appears_composed c i s Hc Hi Ha Hs inflate Hinf sel x y (Z.of_nat k) (filled fr) (sf_cels sf)); try assumption.
  - rewrite E. exact HS.
  - rewrite E. exact HIn.
  - eapply pixel_px; [exact Hb|exact P1].
Qed.
