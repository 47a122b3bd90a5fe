(** Compositing with any alpha; drawings written, loaded and drawn. *)
From Verif.Model Require Import Loader Inflate.
From Verif.Spec Require Import Bytes Format BlendSpec RenderSpec Encode FileSpec LoaderSpec Slices ImageSpec Zlib Drawing Composite.
From Verif.Proofs Require Import ParseLib BlendFacts BlendProps EncodeFacts EncodeProps FileFacts FileProps FileFinal
  LoaderFacts LoaderProps ImageFacts ImageProps InflateFacts RenderFacts RenderProps CanvasProps DrawingProps.
From Coq Require Import ZifyBool.

Local Ltac Zify.zify_post_hook ::= Z.div_mod_to_equations.

(** ** Compositing *)
Lemma rounded_div255 n q : 0 <= n <= 65025 -> rounded n 255 q -> q = div255 n.
Proof. intros H R. apply (rounded_unique n 255); [lia|exact R|now apply div255_rounded]. Qed.

Lemma over_iff back front o r : is_px back -> is_px front -> is_byte o ->
  over back front o r <-> r = normal_px back front o.
Proof.
  intros Hb Hf Ho. pose proof (fa_byte _ _ Hf Ho) as Bs.
  assert (Pf : 0 <= pa front * o <= 65025) by (apply prod_byte; [apply Hf|exact Ho]).
  assert (Bb : is_byte (pa back)) by apply Hb.
  pose proof (div255_rounded _ (prod_byte _ _ Bb Bs)) as R.
  assert (A : forall a, rounded (255 * (div255 (pa front * o) + pa back) - div255 (pa front * o) * pa back) 255 a <->
              a = over_alpha (pa back) (div255 (pa front * o))).
  { set (s := div255 (pa front * o)) in *. clearbody s. unfold rounded, over_alpha in *.
    rewrite (Z.mul_comm s (pa back)). set (m := pa back * s) in *. clearbody m. intro a.
    split; [intro; lia|intros ->; lia]. }
  unfold over, normal_px. split.
  - intros (share & Hs & H). apply (rounded_div255 _ _ Pf) in Hs. subst share.
    destruct (pa back =? 0); [exact H|]. destruct (pa front =? 0); [exact H|].
    destruct H as (Ha & Hr & Hg & Hbl). apply A in Ha. rewrite (px_eta r). unfold over_channel. now rewrite Hr, Hg, Hbl, Ha.
  - intros ->. exists (div255 (pa front * o)). split; [now apply div255_rounded|].
    destruct (pa back =? 0); [reflexivity|]. destruct (pa front =? 0); [reflexivity|].
    cbn [pr pg pb pa mkpx]. split; [now apply A|]. repeat split; reflexivity.
Qed.

Lemma partway_iff x y o q : is_byte x -> is_byte y -> is_byte o -> partway x y o q <-> q = mix x y o.
Proof.
  intros Hx Hy Ho. unfold partway, mix, rounded.
  assert (Hr : - 65025 <= (y - x) * o <= 65025) by (unfold is_byte in *; nia).
  assert (Hn : (y - x) * o < 0 -> y < x) by (unfold is_byte in *; nia).
  assert (Hp : y < x -> (y - x) * o <= 0) by (unfold is_byte in *; nia).
  replace ((x - y) * o) with (- ((y - x) * o)) by ring. set (n := (y - x) * o) in *. clearbody n.
  destruct (Z.ltb_spec y x) as [H|H], (Z.eqb_spec (- n mod 255) 128) as [E|E]; cbn [andb]; unfold div255 in *;
    (split; [intro; lia|intros ->; lia]).
Qed.

Lemma px_partway_iff x y o q : is_px x -> is_px y -> is_byte o -> pa x = pa y -> pa x <> 0 ->
  px_partway x y o q <-> q = merge_px x y o.
Proof.
  intros (X1 & X2 & X3 & X4) (Y1 & Y2 & Y3 & Y4) Ho E Hz. rewrite merge_px_same_alpha by assumption. unfold px_partway.
  rewrite !partway_iff by assumption. split.
  - intros (-> & -> & -> & ->) || intros (H1 & H2 & H3 & H4). rewrite (px_eta q). now rewrite H1, H2, H3, H4.
  - intros ->. repeat split; reflexivity.
Qed.

Lemma mode_colour_unique m back front p q : is_px back -> is_px front ->
  mode_colour m back front p -> mode_colour m back front q -> p = q.
Proof.
  intros (B1 & B2 & B3 & B4) (F1 & F2 & F3 & F4) (P1 & P2 & P3 & P4) (Q1 & Q2 & Q3 & Q4).
  rewrite (px_eta p), (px_eta q).
  rewrite (formula_unique m _ _ _ _ B1 F1 P1 Q1), (formula_unique m _ _ _ _ B2 F2 P2 Q2), P4, Q4.
  assert (F : is_byte (match m with BSoftLight => pb back | _ => pb front end)) by (destruct m; assumption).
  now rewrite (formula_unique m _ _ _ _ B3 F P3 Q3).
Qed.

Lemma composite_iff m back front o : separable m -> is_px back -> is_px front -> is_byte o ->
  exists r, is_px r /\ (forall q, composite m back front o q <-> q = r) /\
    forall c, exists f, blend_mode_to_blend_fn c m = Ok f /\ f back front o = Ok r.
Proof.
  intros Hm Hb Hf Ho. destruct (mode_eq m back front Hm Hb Hf) as (p & (Hp & Ea & F1 & F2 & F3) & Hc).
  assert (Bb : is_byte (pa back)) by apply Hb. pose proof (fa_byte _ _ Hf Ho) as Bs.
  assert (Bboth : is_byte (div255 (pa back * div255 (pa front * o)))) by (apply div255_byte, prod_byte; assumption).
  exists (match m with BNormal => normal_px back front o | _ => blend_px back front p o end). split.
  { destruct m; try (now apply blend_px_byte). now apply normal_px_byte. }
  split; [|intro c; destruct (Hc c) as (f & E & H); exists f; split; [exact E|now apply H]].
  assert (HC : mode_colour m back front p) by (repeat split; try assumption; destruct m; assumption).
  pose proof (normal_px_byte _ _ _ Hb Hf Ho) as N1. pose proof (normal_px_byte _ _ _ Hb Hp Ho) as N2.
  pose proof (normal_px_alpha back front p o (eq_sym Ea)) as Ep. pose proof (normal_px_alpha_ge back front o Hb Hf Ho) as Hge.
  assert (General : pa back <> 0 -> forall q,
    (exists p0 b t share both, mode_colour m back front p0 /\ over back p0 o b /\
      rounded (pa front * o) 255 share /\ rounded (pa back * share) 255 both /\
      px_partway (normal_px back front o) b (pa back) t /\ px_partway t b both q) <-> q = blend_px back front p o).
  { intros Hz q. unfold blend_px. destruct (Z.eqb_spec (pa back) 0) as [|_]; [contradiction|].
    assert (Hz1 : pa (normal_px back front o) <> 0) by (unfold is_byte in *; lia).
    pose proof (merge_px_byte _ _ _ N1 N2 Bb) as M1.
    assert (Em : pa (merge_px (normal_px back front o) (normal_px back p o) (pa back)) = pa (normal_px back p o))
      by (rewrite merge_px_same_alpha by assumption; exact Ep).
    split.
    - intros (p0 & b & t & share & both & H1 & H2 & H3 & H4 & H5 & H6).
      assert (p0 = p) as -> by (apply (mode_colour_unique m back front); assumption).
      apply over_iff in H2; try assumption. subst b.
      apply rounded_div255 in H3; [|apply prod_byte; [apply Hf|exact Ho]]. subst share.
      apply rounded_div255 in H4; [|apply prod_byte; assumption]. subst both.
      apply px_partway_iff in H5; try assumption. subst t.
      apply px_partway_iff in H6; try assumption. congruence.
    - intros ->. exists p, (normal_px back p o), (merge_px (normal_px back front o) (normal_px back p o) (pa back)),
        (div255 (pa front * o)), (div255 (pa back * div255 (pa front * o))).
      split; [exact HC|]. split; [now apply over_iff|]. split; [apply div255_rounded, prod_byte; [apply Hf|exact Ho]|].
      split; [apply div255_rounded, prod_byte; assumption|]. split; [now apply px_partway_iff|].
      apply px_partway_iff; try assumption; [congruence|reflexivity]. }
  intro q. unfold composite. split.
  - intros (n & Hn & H). apply over_iff in Hn; try assumption. subst n.
    destruct (Z.eqb_spec (pa back) 0) as [Hz|Hz].
    + subst q. unfold blend_px. rewrite Hz. cbn [Z.eqb]. now destruct m.
    + pose proof (proj1 (General Hz q)) as G. destruct m; try exact H; now apply G.
  - intros ->. exists (normal_px back front o). split; [now apply over_iff|].
    destruct (Z.eqb_spec (pa back) 0) as [Hz|Hz].
    + unfold blend_px. rewrite Hz. cbn [Z.eqb]. now destruct m.
    + destruct m; try reflexivity; now apply General.
Qed.

(** ** Drawings *)
Lemma stored_longer bs : zlen (concat bs) <= zlen (zlib_stored bs).
Proof.
  unfold zlib_stored, zlen. rewrite !app_length.
  assert (length (concat bs) <= length (stored_blocks bs))%nat; [|lia].
  induction bs as [|x bs IH]; [cbn; lia|]. rewrite stored_blocks_cons. cbn [concat length]. rewrite !app_length. lia.
Qed.

Section Drawn.
Context (c : cfg) (inflate : inflater) (d : drawing) (s : ase_file).
Context (Hc : cfg_ok c) (Hinf : inflate_ok inflate) (Hread : reads_stored inflate) (Hd : wf_drawing d).
Context (Hs : load c (drawing_file d) = Ok s).

Lemma drawing_bytes : is_bytes (drawing_file d).
Proof. destruct (file_writes (kept_error c) _ (drawing_wf d Hd)). assumption. Qed.
Lemma drawing_addressable : addressable c (drawing_file d).
Proof. destruct Hd as (_ & _ & _ & _ & _ & _ & _ & _ & H). unfold addressable. destruct Hc as [-> | ->]; cbn in *; lia. Qed.

Lemma drawing_parsed : af_file s = file_of (drawing_raw d) (seen (dr_colours d)).
Proof.
  apply load_ok in Hs as [E _]. rewrite parse_file_eq in E by (exact Hc || exact drawing_bytes || exact drawing_addressable).
  unfold drawing_file in E. rewrite write_read in E by (exact Hc || exact (drawing_wf d Hd) || exact drawing_addressable). cbn [bind] in E.
  rewrite drawing_outcome in E by exact Hd. now injection E.
Qed.

Lemma drawing_images im : In im (af_images s) -> exists p, wf_picture (dr_colours d) p /\ im = picture_image p.
Proof.
  intro H. rewrite (loaded_images c _ s Hs), drawing_parsed, (drawing_frames d Hd) in H.
  apply in_map_iff in H as ([key im'] & <- & H). cbn [snd].
  apply image_cels_in_file in H as (k & fr & x & _ & Hk & Hx & Ec).
  rewrite nth_error_map in Hk. destruct (nth_error (dr_frames d) k) as [[ms ps]|] eqn:Ek; [|discriminate]. injection Hk as <-.
  change (filled (drawn_frame (ms, ps))) with (filled {| fr_duration := 0; fr_cels := slot_list ps |}) in Hx.
  rewrite filled_slots in Hx. apply in_cels_of in Hx as (j & p & Hj & ->). injection Ec as <-.
  exists p. split; [|reflexivity]. destruct Hd as (_ & _ & _ & _ & _ & _ & _ & HF & _). rewrite Forall_forall in HF.
  destruct (HF _ (nth_error_In _ _ Ek)) as (_ & _ & HP). rewrite Forall_forall in HP. exact (HP _ (nth_error_In _ _ Hj)).
Qed.

Lemma drawing_fits target : zlen (drawing_file d) < 2 ^ 28 -> addressable c target -> canvas_size s <= zlen target ->
  sprite_fits c s.
Proof.
  intros Hlt Hta Hle. split.
  - unfold addressable in Hta. destruct Hc as [E|E]; rewrite E in *; cbn in *; lia.
  - apply Forall_forall. intros im Him. destruct (drawing_images im Him) as (p & Hp & ->).
    assert (Hinx : infix (im_data (picture_image p)) (drawing_file d)).
    { apply (sprite_slices_infix c _ s Hc drawing_bytes drawing_addressable Hs). unfold sprite_slices.
      rewrite !in_app_iff. do 3 right. now apply in_map. }
    destruct Hinx as (a & b & Hab). rewrite Hab in Hlt. unfold zlen in Hlt. rewrite !app_length in Hlt.
    assert (Hr : rgba_size (picture_image p) <= 4 * zlen (pic_pixels p)).
    { destruct Hp as (_ & _ & P3 & P4 & _ & P6). unfold rgba_size. cbn [im_width im_height picture_image]. rewrite P6.
      destruct P3, P4. destruct (dr_colours d); cbn [pixel_length]; nia. }
    assert (zlen (pic_pixels p) <= zlen (im_data (picture_image p))).
    { cbn [im_data picture_image]. destruct (pic_compressed p); [apply stored_longer|lia]. }
    unfold zlen in *. destruct Hc as [-> | ->]; cbn in *; lia.
Qed.

Lemma shown_image k p fc : cel_ok s fc -> wf_picture (dr_colours d) p ->
  shows_picture c inflate s (dr_colours d) (k, p) fc ->
  sprite_fits c s -> cel_image inflate s fc (as_rgba (dr_colours d) (pic_pixels p)).
Proof.
  intros (H0 & im & Hj & Esz) Hp (_ & _ & E3 & HL) [_ HF]. exists im. split; [exact Hj|].
  pose proof (picture_rgba _ _ Hp) as Er0. set (rgba := as_rgba (dr_colours d) (pic_pixels p)) in *.
  assert (Er : rgba_size im = zlen rgba).
  { rewrite <- Er0. rewrite E3 in Esz. unfold rgba_size. cbn [im_width im_height picture_image]. rewrite Esz. reflexivity. }
  rewrite Forall_forall in HF. destruct (HF im (nth_error_In _ _ Hj)) as [F1 F2].
  set (t := repeat 0 (Z.to_nat (rgba_size im))). assert (Ht : zlen t = rgba_size im).
  { unfold t, zlen. rewrite repeat_length. rewrite Er. unfold zlen. lia. }
  assert (Hta : addressable c t) by (unfold addressable; lia).
  assert (Hfit : sizes_fit c im).
  { split; [|exact F2]. destruct Hc as [Eb|Eb]; rewrite Eb in *; cbn in *; lia. }
  specialize (HL t ltac:(lia) Hta). rewrite <- (Z2Nat.id (fc_image_index fc)) in HL by exact H0.
  apply (load_image_ok c _ s Hc drawing_bytes drawing_addressable Hs inflate Hinf _ _ t Hj Hfit Hta) in HL as (_ & rgba' & Hdec & E).
  rewrite firstn_all2 in Hdec by (unfold zlen in Ht; lia).
  rewrite !(skipn_all2 t) in E by (unfold zlen in Ht, Er; lia).
  rewrite !app_nil_r in E. now rewrite E.
Qed.

Lemma drawn_on sel k p fc : api_layers s = dr_layers d -> shows_picture c inflate s (dr_colours d) (k, p) fc ->
  drawn s sel fc = on_layer (dr_layers d) sel k.
Proof. intros El (<- & _). unfold drawn, on_layer. unfold api_layers in El. now rewrite El. Qed.
Lemma covers_inside k p fc x y : shows_picture c inflate s (dr_colours d) (k, p) fc -> covers fc x y = inside p x y.
Proof.
  intros (_ & E1 & E2 & _). unfold covers, inside. rewrite E1, E2. destruct (pic_origin p), (pic_size p). reflexivity.
Qed.

Lemma composed_painted sel x y kps fcs : api_layers s = dr_layers d -> sprite_fits c s ->
  (forall k l, on_layer (dr_layers d) sel k = Some l -> separable (ly_blend_mode l)) ->
  Forall2 (shows_picture c inflate s (dr_colours d)) kps fcs -> Forall (cel_ok s) fcs ->
  Forall (fun kp => wf_picture (dr_colours d) (snd kp)) kps ->
  forall back r, is_px back -> composed c inflate s sel x y fcs back r ->
  painted (dr_colours d) (dr_layers d) sel x y kps back r.
Proof.
  intros El Hfit Hsep. induction 1 as [|[k p] fc kps fcs Hsh HF IH]; intros HC HW back r Hb H.
  - inversion H; subst. constructor.
  - inversion HC as [|? ? Hok HC']; subst. inversion HW as [|? ? Hp HW']; subst. cbn [snd] in Hp.
    pose proof (drawn_on sel k p fc El Hsh) as Ed. pose proof (covers_inside k p fc x y Hsh) as Ec.
    inversion H as [|? ? ? ? Hskip Hrest|? ? ? l image front f mid ? H1 H2 H3 H4 H5 H6 Hrest]; subst.
    + apply painted_skip; [rewrite <- Ed, <- Ec; exact Hskip|now apply IH].
    + rewrite Ed in H1. rewrite Ec in H2.
      assert (image = as_rgba (dr_colours d) (pic_pixels p)) as ->.
      { eapply cel_image_unique; [exact H3|now apply (shown_image k)]. }
      destruct Hsh as (_ & S1 & S2 & _). rewrite S1, S2 in H4.
      assert (Hfront : is_px front).
      { eapply pixel_px; [|exact H4].
        exact (cel_image_bytes c _ s Hc drawing_bytes drawing_addressable Hs inflate Hinf fc _ H3). }
      assert (Hop : is_byte (ly_opacity l)).
      { unfold on_layer in H1. destruct (nth_error (dr_layers d) (Z.to_nat k)) as [l'|] eqn:En; [|discriminate].
        assert (l' = l) as -> by (destruct (ly_layer_type l'), (chosen sel k l'); congruence).
        destruct Hd as (_ & _ & _ & HL & _). rewrite Forall_forall in HL.
        destruct (HL _ (nth_error_In _ _ En)) as (_ & Ho & _). unfold u8, uint in Ho. unfold is_byte. cbn in Ho. lia. }
      destruct (composite_iff (ly_blend_mode l) back front (ly_opacity l) (Hsep k l H1) Hb Hfront Hop) as (m & Hm & Hiff & Hf).
      destruct (Hf c) as (f' & E1 & E2). assert (f' = f) as -> by congruence.
      assert (mid = m) as -> by congruence.
      eapply painted_draw; [exact H1|exact H2|exact H4|now apply Hiff|now apply IH].
Qed.
End Drawn.

Lemma wf_pictures d ms ps : wf_drawing d -> In (ms, ps) (dr_frames d) ->
  Forall (fun kp => wf_picture (dr_colours d) (snd kp)) (pictures ps).
Proof.
  intros (_ & _ & _ & _ & _ & _ & _ & HF & _) Hin. rewrite Forall_forall in HF. destruct (HF _ Hin) as (_ & _ & HP).
  rewrite Forall_forall in HP. apply Forall_forall. intros [k p] H.
  apply in_flat_map in H as ([k2 o] & H & Hp). destruct o as [q|]; [|contradiction]. destruct Hp as [[= <- <-]|[]].
  apply In_nth_error in H as [j Hj]. rewrite numbered_nth in Hj.
  destruct (nth_error ps j) as [o|] eqn:Eo; [|discriminate]. injection Hj as _ ->. exact (HP _ (nth_error_In _ _ Eo)).
Qed.

Lemma drawing_rendered c inflate d sel k ms ps target :
  cfg_ok c -> inflate_ok inflate -> reads_stored inflate -> wf_drawing d -> zlen (drawing_file d) < 2 ^ 28 ->
  (forall k l, on_layer (dr_layers d) sel k = Some l -> separable (ly_blend_mode l)) ->
  nth_error (dr_frames d) k = Some (ms, ps) ->
  is_bytes target -> addressable c target -> fst (dr_size d) * snd (dr_size d) * 4 <= zlen target ->
  exists s r, load c (drawing_file d) = Ok s /\
    render_frame c inflate s (Z.of_nat k) target sel = Ok r /\ zlen r = zlen target /\
    forall x y, 0 <= x < fst (dr_size d) -> 0 <= y < snd (dr_size d) ->
    exists back p, pixel (fst (dr_size d)) target x y = Some back /\ pixel (fst (dr_size d)) r x y = Some p /\
      painted (dr_colours d) (dr_layers d) sel x y (pictures ps) back p.
Proof.
  intros Hc Hinf Hread Hd Hlt Hsep Hk Hb Hta Hsz.
  destruct (drawing_loads c inflate d Hc Hinf Hread Hd) as (s & Hs & Esz & El & HF).
  pose proof (drawing_bytes c d Hd) as Hbytes. pose proof (drawing_addressable c d Hc Hd) as Hadd.
  assert (Ew : canvas_width s = fst (dr_size d)) by (rewrite <- Esz; reflexivity).
  assert (Eh : canvas_height s = snd (dr_size d)) by (rewrite <- Esz; reflexivity).
  assert (Hcs : canvas_size s <= zlen target) by (unfold canvas_size; rewrite Ew, Eh; exact Hsz).
  pose proof (drawing_fits c d s Hc Hd Hs target Hlt Hta Hcs) as Hfit.
  destruct (Forall2_nth _ _ _ _ _ HF Hk) as (sf & Hsf & _ & HP). cbn [snd] in HP.
  pose proof (frame_cels_ok c _ s Hc Hbytes Hadd Hs k sf Hsf) as Hok.
  pose proof (wf_pictures d ms ps Hd (nth_error_In _ _ Hk)) as HW.
  assert (Hex : exists r, render_frame c inflate s (Z.of_nat k) target sel = Ok r).
  { apply (render_succeeds c _ s Hc Hbytes Hadd Hs inflate Hinf Hfit sel k sf target Hsf Hb Hcs).
    intros cel l Hin Hdr. apply In_nth_error in Hin as [j Hj].
    assert (Hlen : length (pictures ps) = length (sf_cels sf)) by (eapply Forall2_same_length; exact HP).
    destruct (nth_error (pictures ps) j) as [[k' p]|] eqn:Ej.
    2:{ apply nth_error_None in Ej. assert (nth_error (sf_cels sf) j = None) by (apply nth_error_None; lia). congruence. }
    destruct (Forall2_nth _ _ _ _ _ HP Ej) as (fc & Hfc & Hsh). assert (fc = cel) as -> by congruence.
    rewrite (drawn_on c inflate d s sel k' p cel El Hsh) in Hdr. split; [|split].
    - exists (as_rgba (dr_colours d) (pic_pixels p)).
      apply (shown_image c inflate d s Hc Hinf Hd Hs k'); try assumption.
      + rewrite Forall_forall in Hok. apply Hok. exact (nth_error_In _ _ Hj).
      + rewrite Forall_forall in HW. exact (HW _ (nth_error_In _ _ Ej)).
    - left. eapply Hsep; exact Hdr.
    - intros _. eapply Hsep; exact Hdr. }
  destruct Hex as [r Hr]. exists s, r. split; [exact Hs|]. split; [exact Hr|].
  pose proof (render_buffer c _ s Hc Hbytes Hadd Hs inflate Hinf Hfit sel k sf target Hsf Hb Hcs) as Hbuf.
  rewrite Hr in Hbuf. split; [apply Hbuf|]. intros x y Hx Hy.
  destruct (render_composes c _ s Hc Hbytes Hadd Hs inflate Hinf Hfit sel k sf target r Hsf Hb Hr x y) as (back & p & H1 & H2 & H3);
    [rewrite Ew; exact Hx|rewrite Eh; exact Hy|].
  exists back, p. rewrite Ew in H1, H2. split; [exact H1|]. split; [exact H2|].
  apply (composed_painted c inflate d s Hc Hinf Hd Hs sel x y _ (sf_cels sf)); try assumption.
  eapply pixel_px; [exact Hb|exact H1].
Qed.

(** Pixels of a drawing's image are pixels. *)
Lemma gray_rgba_bytes n : forall l, (length l <= n)%nat -> is_bytes l -> is_bytes (gray_rgba l).
Proof.
  induction n as [|n IH]; intros [|v [|a l]] Hn H; cbn in *; try constructor; try lia; inversion H as [|? ? V H']; subst;
    inversion H' as [|? ? A H'']; subst; try assumption.
  repeat (constructor; [assumption|]). apply IH; [lia|assumption].
Qed.
Lemma colour_byte pal t k : Forall wf_color pal ->
  is_bytes [red (colour pal t k); green (colour pal t k); blue (colour pal t k); alpha (colour pal t k)].
Proof.
  intro H. assert (W : wf_color (nth (Z.to_nat k) pal black)).
  { destruct (nth_in_or_default (Z.to_nat k) pal black) as [Hin| ->].
    - rewrite Forall_forall in H. now apply H.
    - repeat constructor; discriminate. }
  unfold wf_color, enc_color in W. unfold colour. cbn [red green blue alpha]. unfold is_bytes in *. rewrite !Forall_cons_iff in *.
  destruct W as (W1 & W2 & W3 & W4 & W5). repeat split; try (apply W1 || apply W2 || apply W3); try apply W5;
    destruct (k =? t); try apply W4; unfold is_byte; lia.
Qed.
Lemma as_rgba_bytes m pixels : wf_colours m -> is_bytes pixels -> is_bytes (as_rgba m pixels).
Proof.
  intros Hm H. destruct m as [| |pal t]; cbn [as_rgba].
  - exact H.
  - eapply gray_rgba_bytes; [apply le_n|exact H].
  - destruct Hm as (_ & Hp & _). clear H. induction pixels as [|k l IH]; [constructor|]. cbn [flat_map].
    apply Forall_app. split; [now apply colour_byte|exact IH].
Qed.

Lemma painted_unique m ls sel x y kps : wf_colours m -> Forall wf_sprite_layer ls ->
  (forall k l, on_layer ls sel k = Some l -> separable (ly_blend_mode l)) ->
  Forall (fun kp => wf_picture m (snd kp)) kps ->
  forall back p q, is_px back -> painted m ls sel x y kps back p -> painted m ls sel x y kps back q -> p = q.
Proof.
  intros Hm HL Hsep. induction 1 as [|[k pic] kps Hp HW IH]; intros back p q Hb H1 H2.
  - inversion H1; inversion H2; congruence.
  - inversion H1 as [|? ? ? ? ? S1 R1|? ? ? ? l front mid ? A1 A2 A3 A4 R1]; subst;
      inversion H2 as [|? ? ? ? ? S2 R2|? ? ? ? l2 front2 mid2 ? B1 B2 B3 B4 R2]; subst.
    + now apply (IH back).
    + destruct S1; congruence.
    + destruct S2; congruence.
    + assert (l2 = l) as -> by congruence. assert (front2 = front) as -> by congruence.
      assert (Hf : is_px front).
      { eapply pixel_px; [|exact A3]. apply as_rgba_bytes; [exact Hm|]. destruct Hp as (_ & _ & _ & _ & Hst & _).
        now apply storable_bytes. }
      assert (Hop : is_byte (ly_opacity l)).
      { unfold on_layer in A1. destruct (nth_error ls (Z.to_nat k)) as [l'|] eqn:En; [|discriminate].
        assert (l' = l) as -> by (destruct (ly_layer_type l'), (chosen sel k l'); congruence).
        rewrite Forall_forall in HL. destruct (HL _ (nth_error_In _ _ En)) as (_ & Ho & _).
        unfold u8, uint in Ho. unfold is_byte. cbn in Ho. lia. }
      destruct (composite_iff (ly_blend_mode l) back front (ly_opacity l) (Hsep k l A1) Hb Hf Hop) as (r & Hr & Hiff & _).
      apply Hiff in A4. apply Hiff in B4. subst mid mid2. now apply (IH r).
Qed.

(** ** One picture *)
Lemma quads_eq n : forall a b : bytes, zlen a = 4 * Z.of_nat n -> zlen b = 4 * Z.of_nat n ->
  (forall k, (k < n)%nat -> quad a k = quad b k) -> a = b.
Proof.
  induction n as [|n IH]; intros a b Ha Hb H.
  - destruct a; [|unfold zlen in Ha; cbn in Ha; lia]. destruct b; [reflexivity|unfold zlen in Hb; cbn in Hb; lia].
  - destruct a as [|a1 [|a2 [|a3 [|a4 a]]]]; try (unfold zlen in Ha; cbn in Ha; lia).
    destruct b as [|b1 [|b2 [|b3 [|b4 b]]]]; try (unfold zlen in Hb; cbn in Hb; lia).
    pose proof (H 0%nat ltac:(lia)) as H0. cbn in H0. injection H0 as -> -> -> ->. do 4 f_equal.
    apply IH; try (unfold zlen in *; cbn [length] in *; lia). intros k Hk.
    specialize (H (S k) ltac:(lia)). unfold quad in *. replace (4 * S k)%nat with (S (S (S (S (4 * k))))) in H by lia. exact H.
Qed.

Lemma quad_zero n k : quad (repeat 0 n) k = Some (0, 0, 0, 0) \/ quad (repeat 0 n) k = None.
Proof.
  unfold quad. assert (E : skipn (4 * k) (repeat 0 n) = repeat 0 (n - 4 * k)).
  { generalize (4 * k)%nat as j. induction n as [|n IH]; intros [|j]; try reflexivity. cbn [repeat skipn Nat.sub]. apply IH. }
  rewrite E. destruct (n - 4 * k)%nat as [|[|[|[|j]]]]; cbn [repeat]; auto.
Qed.

Lemma single_picture c inflate d sel k j ms ps p l :
  cfg_ok c -> inflate_ok inflate -> reads_stored inflate -> wf_drawing d -> zlen (drawing_file d) < 2 ^ 28 ->
  nth_error (dr_frames d) k = Some (ms, ps) -> pictures ps = [(j, p)] ->
  on_layer (dr_layers d) sel j = Some l -> ly_opacity l = 255 ->
  (forall k l, on_layer (dr_layers d) sel k = Some l -> separable (ly_blend_mode l)) ->
  pic_origin p = (0, 0) -> pic_size p = dr_size d -> addressable c (as_rgba (dr_colours d) (pic_pixels p)) ->
  exists s, load c (drawing_file d) = Ok s /\
    render_frame c inflate s (Z.of_nat k) (repeat 0 (length (as_rgba (dr_colours d) (pic_pixels p)))) sel =
      Ok (as_rgba (dr_colours d) (pic_pixels p)).
Proof.
  intros Hc Hinf Hread Hd Hlt Hk Eps Hon Hop Hsep Eo Es Hra.
  set (rgba := as_rgba (dr_colours d) (pic_pixels p)). set (target := repeat 0 (length rgba)).
  assert (Hp : wf_picture (dr_colours d) p).
  { pose proof (wf_pictures d ms ps Hd (nth_error_In _ _ Hk)) as HW. rewrite Eps in HW. now inversion HW. }
  pose proof (picture_rgba _ _ Hp) as Er. fold rgba in Er. unfold rgba_size in Er. cbn [im_width im_height picture_image] in Er.
  rewrite Es in Er. assert (Ht : zlen target = zlen rgba) by (unfold target, zlen; now rewrite repeat_length).
  assert (Hbt : is_bytes target) by (apply Forall_forall; intros x Hx; apply repeat_spec in Hx; unfold is_byte; lia).
  assert (Hta : addressable c target) by (unfold addressable in *; rewrite Ht; exact Hra).
  destruct (drawing_rendered c inflate d sel k ms ps target Hc Hinf Hread Hd Hlt Hsep Hk Hbt Hta ltac:(lia))
    as (s & r & Hs & Hr & Hl & H).
  exists s. split; [exact Hs|]. rewrite Hr. f_equal.
  destruct Hd as (Dw & Dh & Hcol & _). set (w := fst (dr_size d)) in *. set (h := snd (dr_size d)) in *.
  assert (Hw : 0 <= w) by apply Dw. assert (Hh : 0 <= h) by apply Dh.
  apply (quads_eq (Z.to_nat (w * h))); try (rewrite Z2Nat.id by nia; lia).
  intros n Hn. set (x := Z.of_nat n mod w). set (y := Z.of_nat n / w).
  assert (Hn' : Z.of_nat n < w * h) by lia.
  assert (Hw0 : 0 < w) by nia.
  assert (Hx : 0 <= x < w) by (apply Z.mod_pos_bound; exact Hw0).
  assert (Hy : 0 <= y < h).
  { split; [apply Z.div_pos; lia|]. apply Z.div_lt_upper_bound; [exact Hw0|lia]. }
  assert (En : Z.to_nat (y * w + x) = n).
  { unfold x, y. pose proof (Z.div_mod (Z.of_nat n) w ltac:(lia)) as E. rewrite (Z.mul_comm _ w), <- E. lia. }
  destruct (H x y Hx Hy) as (back & q & H1 & H2 & H3). rewrite Eps in H3.
  assert (Hback : back = mkpx 0 0 0 0).
  { unfold pixel in H1. rewrite En in H1. unfold target in H1. destruct (quad_zero (length rgba) n) as [E|E]; rewrite E in H1; congruence. }
  assert (Hin : inside p x y = true).
  { unfold inside. rewrite Eo, Es. fold w h. cbn [fst snd]. lia. }
  clearbody x y. inversion H3 as [|? ? ? ? ? S1 R1|? ? ? ? l' front mid ? A1 A2 A3 A4 R1]; subst; [destruct S1; congruence|].
  inversion R1; subst. assert (l' = l) as -> by congruence.
  rewrite Eo, Es in A3. cbn [fst snd] in A3. fold w rgba in A3. rewrite !Z.sub_0_r in A3.
  destruct A4 as (m & Hov & E). cbn [pa mkpx] in E. rewrite Z.eqb_refl in E. subst q.
  destruct Hov as (share & Hsh & E). cbn [pa mkpx] in E. rewrite Z.eqb_refl in E. subst m.
  rewrite Hop in Hsh. assert (share = pa front) as -> by (unfold rounded in Hsh; lia).
  rewrite <- px_eta in H2. rewrite <- A3 in H2. unfold pixel in H2, A3.
  destruct (quad r _) as [[[[r1 r2] r3] r4]|]; [|congruence].
  destruct (quad rgba _) as [[[[g1 g2] g3] g4]|]; [|discriminate]. unfold mkpx in H2. congruence.
Qed.
