(** Copies of sprites: moved, recoloured, in another colour depth; grey sprites. *)
From Verif.Model Require Import Loader.
From Verif.Spec Require Import Bytes ImageSpec BlendSpec RenderSpec Laws.
From Verif.Proofs Require Import ParseLib BlendFacts BlendProps ImageFacts ImageProps RenderFacts RenderProps CanvasProps LawProps.

(** ** Copies *)
Section Copy.
Context (c : cfg) (i : bytes) (s : ase_file).
Context (Hc : cfg_ok c) (Hi : is_bytes i) (Ha : addressable c i) (Hload : load c i = Ok s).
Context (inflate : inflater) (Hinf : inflate_ok inflate) (sel : layer_selection).
Context (phi : px -> px) (dx dy : Z) (f' : file).

Lemma composed_copied x y cels :
  (forall cel l, In cel cels -> drawn s sel cel = Some l -> forall g back front mid, is_px back -> is_px front -> is_byte (ly_opacity l) ->
     blend_mode_to_blend_fn c (ly_blend_mode l) = Ok g -> g back front (ly_opacity l) = Ok mid ->
     g (phi back) (phi front) (ly_opacity l) = Ok (phi mid)) ->
  forall back p, composed c inflate s sel x y cels back p -> is_px back ->
  forall l' p', Forall2 (copied inflate phi dx dy (af_file s) f') (shown s sel cels) l' ->
  laid c inflate f' (x + dx) (y + dy) l' (phi back) p' -> p' = phi p.
Proof.
  intros S back p H. induction H as [back|cel cels back p Hs H IH|cel cels back l image front g mid p Hdr Hcov Him Hpx Hg Hm H IH];
    intros Hb l' p' HF HL.
  - inversion HF; subst. inversion HL; subst. reflexivity.
  - assert (S' : forall cel' l, In cel' cels -> drawn s sel cel' = Some l -> forall g back front mid, is_px back -> is_px front -> is_byte (ly_opacity l) ->
       blend_mode_to_blend_fn c (ly_blend_mode l) = Ok g -> g back front (ly_opacity l) = Ok mid ->
       g (phi back) (phi front) (ly_opacity l) = Ok (phi mid)) by (intros cel' l Hin; apply S; now right).
    cbn [shown flat_map] in HF. destruct (drawn s sel cel) as [l|] eqn:E; [|exact (IH S' Hb _ _ HF HL)].
    destruct Hs as [Hs|Hs]; [discriminate|]. cbn [app] in HF.
    inversion HF as [|a b u v HR HF' E1 E2]; subst. destruct b as [[[[bo bz] bi] bm] bop]. cbn [copied] in HR.
    destruct HR as (-> & -> & -> & -> & HR).
    assert (HS : spans (fst (fc_origin cel) + dx, snd (fc_origin cel) + dy) (fc_size cel) (x + dx) (y + dy) = false).
    { rewrite <- Hs, covers_spans. unfold spans. cbn [fst snd].
      apply eq_true_iff_eq. rewrite !andb_true_iff, !Z.leb_le, !Z.ltb_lt. lia. }
    inversion HL; subst; [|congruence]. eapply IH; eassumption.
  - cbn [shown flat_map] in HF. rewrite Hdr in HF. cbn [app] in HF.
    inversion HF as [|a b u v HR HF' E1 E2]; subst. destruct b as [[[[bo bz] bi] bm] bop]. cbn [copied] in HR.
    destruct HR as (-> & -> & -> & -> & HR).
    assert (Hf : is_px front) by (eapply pixel_px; [|exact Hpx]; eapply cel_image_bytes; eassumption).
    assert (Ho : is_byte (ly_opacity l)).
    { eapply layer_opacity; [exact Hc|exact Hi|exact Ha|exact Hload|]. eapply drawn_layer; eassumption. }
    assert (Pm : is_px mid).
    { pose proof (mode_fn c (ly_blend_mode l) g back front (ly_opacity l) Hb Hf Ho Hg) as G. rewrite Hm in G. exact G. }
    pose proof (S cel l (or_introl eq_refl) Hdr g back front mid Hb Hf Ho Hg Hm) as Hm'.
    destruct Him as (im & Eim & Him).
    rewrite covers_spans in Hcov. unfold spans in Hcov. rewrite !andb_true_iff, !Z.leb_le, !Z.ltb_lt in Hcov.
    inversion HL as [|o z i0 m op l0 b0 p0 S0 L0|o z im' m op l0 b0 image' front' g' mid' p0 S0 I0 P0 F0 M0 L0]; subst.
    + exfalso. apply not_true_iff_false in S0. apply S0. unfold spans. cbn [fst snd]. rewrite !andb_true_iff, !Z.leb_le, !Z.ltb_lt. lia.
    + pose proof (HR im im' image image' Eim eq_refl Him I0 (x - fst (fc_origin cel)) (y - snd (fc_origin cel)) ltac:(lia) ltac:(lia)) as HP.
      cbn [fst snd] in P0.
      replace (x + dx - (fst (fc_origin cel) + dx)) with (x - fst (fc_origin cel)) in P0 by lia.
      replace (y + dy - (snd (fc_origin cel) + dy)) with (y - snd (fc_origin cel)) in P0 by lia.
      rewrite P0, Hpx in HP. cbn [option_map] in HP. injection HP as ->.
      assert (g' = g) as -> by congruence. rewrite Hm' in M0. injection M0 as <-.
      eapply IH; [|exact Pm|exact HF'|exact L0]. intros cel' l'' Hin. apply S. now right.
Qed.
End Copy.

Lemma copied_pixels c i s i' s' : cfg_ok c -> is_bytes i -> addressable c i -> load c i = Ok s ->
  is_bytes i' -> addressable c i' -> load c i' = Ok s' ->
  forall inflate, inflate_ok inflate -> sprite_fits c s -> sprite_fits c s' ->
  forall sel sel' k sf k' sf', nth_error (api_frames s) k = Some sf -> nth_error (api_frames s') k' = Some sf' ->
  forall phi dx dy,
  (forall cel l, In cel (sf_cels sf) -> drawn s sel cel = Some l -> forall g back front mid, is_px back -> is_px front -> is_byte (ly_opacity l) ->
     blend_mode_to_blend_fn c (ly_blend_mode l) = Ok g -> g back front (ly_opacity l) = Ok mid ->
     g (phi back) (phi front) (ly_opacity l) = Ok (phi mid)) ->
  Forall2 (copied inflate phi dx dy (af_file s) (af_file s')) (shown s sel (sf_cels sf)) (shown s' sel' (sf_cels sf')) ->
  forall target target' r r', is_bytes target -> is_bytes target' ->
  render_frame c inflate s (Z.of_nat k) target sel = Ok r ->
  render_frame c inflate s' (Z.of_nat k') target' sel' = Ok r' ->
  forall x y, 0 <= x < canvas_width s -> 0 <= y < canvas_height s ->
  0 <= x + dx < canvas_width s' -> 0 <= y + dy < canvas_height s' ->
  pixel (canvas_width s') target' (x + dx) (y + dy) = option_map phi (pixel (canvas_width s) target x y) ->
  pixel (canvas_width s') r' (x + dx) (y + dy) = option_map phi (pixel (canvas_width s) r x y).
Proof.
  intros Hc Hi Ha Hl Hi' Ha' Hl' inflate Hinf Hfit Hfit' sel sel' k sf k' sf' Hk Hk' phi dx dy S HX t t' r r' Ht Ht' Hr Hr' x y Hx Hy Hx' Hy' HT.
  destruct (render_composes c i s Hc Hi Ha Hl inflate Hinf Hfit sel k sf t r Hk Ht Hr x y Hx Hy) as (b & p & P1 & P2 & C).
  destruct (render_composes c i' s' Hc Hi' Ha' Hl' inflate Hinf Hfit' sel' k' sf' t' r' Hk' Ht' Hr' _ _ Hx' Hy') as (b' & p' & P1' & P2' & C').
  rewrite P1, P1' in HT. cbn [option_map] in HT. injection HT as ->. rewrite P2, P2'. cbn [option_map]. f_equal.
  apply composed_laid in C'.
  exact (composed_copied c i s Hc Hi Ha Hl inflate Hinf sel phi dx dy (af_file s') x y (sf_cels sf) S b p C (pixel_px _ _ _ _ _ Ht P1) _ p' HX C').
Qed.

Lemma copied_same c i s i' s' : cfg_ok c -> is_bytes i -> addressable c i -> load c i = Ok s ->
  is_bytes i' -> addressable c i' -> load c i' = Ok s' ->
  forall inflate, inflate_ok inflate -> sprite_fits c s -> sprite_fits c s' ->
  forall sel sel' k sf k' sf', nth_error (api_frames s) k = Some sf -> nth_error (api_frames s') k' = Some sf' ->
  forall dx dy,
  Forall2 (copied inflate (fun p => p) dx dy (af_file s) (af_file s')) (shown s sel (sf_cels sf)) (shown s' sel' (sf_cels sf')) ->
  forall target target' r r', is_bytes target -> is_bytes target' ->
  render_frame c inflate s (Z.of_nat k) target sel = Ok r ->
  render_frame c inflate s' (Z.of_nat k') target' sel' = Ok r' ->
  forall x y, 0 <= x < canvas_width s -> 0 <= y < canvas_height s ->
  0 <= x + dx < canvas_width s' -> 0 <= y + dy < canvas_height s' ->
  pixel (canvas_width s') target' (x + dx) (y + dy) = pixel (canvas_width s) target x y ->
  pixel (canvas_width s') r' (x + dx) (y + dy) = pixel (canvas_width s) r x y.
Proof.
  intros Hc Hi Ha Hl Hi' Ha' Hl' inflate Hinf Hfit Hfit' sel sel' k sf k' sf' Hk Hk' dx dy HX t t' r r' Ht Ht' Hr Hr' x y Hx Hy Hx' Hy' HT.
  assert (I : forall o : option px, o = option_map (fun p => p) o) by (intros [|]; reflexivity).
  rewrite (I (pixel (canvas_width s) r x y)). rewrite (I (pixel (canvas_width s) t x y)) in HT.
  apply (copied_pixels c i s i' s' Hc Hi Ha Hl Hi' Ha' Hl' inflate Hinf Hfit Hfit' sel sel' k sf k' sf' Hk Hk' (fun p => p) dx dy) with (target := t) (target' := t'); try assumption.
  auto.
Qed.

Lemma copied_channels c i s i' s' : cfg_ok c -> is_bytes i -> addressable c i -> load c i = Ok s ->
  is_bytes i' -> addressable c i' -> load c i' = Ok s' ->
  forall inflate, inflate_ok inflate -> sprite_fits c s -> sprite_fits c s' ->
  forall sel sel' k sf k' sf', nth_error (api_frames s) k = Some sf -> nth_error (api_frames s') k' = Some sf' ->
  (forall cel l, In cel (sf_cels sf) -> drawn s sel cel = Some l -> separable (ly_blend_mode l) /\ ly_blend_mode l <> BSoftLight) ->
  forall a b d dx dy, is_channel a -> is_channel b -> is_channel d ->
  Forall2 (copied inflate (rearranged a b d) dx dy (af_file s) (af_file s')) (shown s sel (sf_cels sf)) (shown s' sel' (sf_cels sf')) ->
  forall target target' r r', is_bytes target -> is_bytes target' ->
  render_frame c inflate s (Z.of_nat k) target sel = Ok r ->
  render_frame c inflate s' (Z.of_nat k') target' sel' = Ok r' ->
  forall x y, 0 <= x < canvas_width s -> 0 <= y < canvas_height s ->
  0 <= x + dx < canvas_width s' -> 0 <= y + dy < canvas_height s' ->
  pixel (canvas_width s') target' (x + dx) (y + dy) = option_map (rearranged a b d) (pixel (canvas_width s) target x y) ->
  pixel (canvas_width s') r' (x + dx) (y + dy) = option_map (rearranged a b d) (pixel (canvas_width s) r x y).
Proof.
  intros Hc Hi Ha Hl Hi' Ha' Hl' inflate Hinf Hfit Hfit' sel sel' k sf k' sf' Hk Hk' HM a b d dx dy Ca Cb Cd HX t t' r r' Ht Ht' Hr Hr' x y Hx Hy Hx' Hy' HT.
  apply (copied_pixels c i s i' s' Hc Hi Ha Hl Hi' Ha' Hl' inflate Hinf Hfit Hfit' sel sel' k sf k' sf' Hk Hk' (rearranged a b d) dx dy) with (target := t) (target' := t'); try assumption.
  intros cel l Hin Hd g back front mid Pb Pf Ho Eg Em. destruct (HM cel l Hin Hd) as [M1 M2].
  exact (channels_alike (ly_blend_mode l) back front (ly_opacity l) a b d M1 M2 Pb Pf Ho Ca Cb Cd c g mid Eg Em).
Qed.

(** ** Grey *)
Lemma from_i32_grey c v a r : px_from_i32 c v v v a = Ok r -> grey r.
Proof. unfold px_from_i32. destruct (_ && _); [discriminate|]. intros [= <-]. split; reflexivity. Qed.
Lemma from_f64_grey c v a r : px_from_f64 c v v v a = Ok r -> grey r.
Proof. apply from_i32_grey. Qed.
Lemma normal_grey c back front o r : grey back -> grey front -> normal c back front o = Ok r -> grey r.
Proof.
  intros [B1 B2] [F1 F2] H. unfold normal in H. rewrite B1, B2, F1, F2 in H. destruct (pa back =? 0).
  - apply bind_ok in H as (al & _ & [= <-]). split; reflexivity.
  - destruct (pa front =? 0); [injection H as <-; now split|].
    apply bind_ok in H as (fa & _ & H). apply bind_ok in H as (u & _ & H). apply bind_ok in H as (m & _ & H). apply bind_ok in H as (ra & _ & H).
    apply bind_ok in H as (x & E1 & H). apply bind_ok in H as (y & E2 & H). apply bind_ok in H as (z & E3 & H).
    assert (y = x) as -> by congruence. assert (z = x) as -> by congruence. now apply from_i32_grey in H.
Qed.
Lemma merge_grey c back front o r : grey back -> grey front -> merge c back front o = Ok r -> grey r.
Proof.
  intros [B1 B2] [F1 F2] H. unfold merge in H. rewrite B1, B2, F1, F2 in H.
  apply bind_ok in H as ([[x y] z] & E & H). apply bind_ok in H as (al & _ & H).
  assert (x = y /\ y = z) as [-> ->].
  { destruct (pa back =? 0); [injection E as <- <- <-; now split|]. destruct (pa front =? 0); [injection E as <- <- <-; now split|].
    apply bind_ok in E as (u & E1 & E). apply bind_ok in E as (v & E2 & E). apply bind_ok in E as (w & E3 & E). split; congruence. }
  destruct (al =? 0); injection H as <-; split; reflexivity.
Qed.
Lemma blender_grey c f : (forall back front o r, grey back -> grey front -> f back front o = Ok r -> grey r) ->
  forall back front o r, grey back -> grey front -> blender c f back front o = Ok r -> grey r.
Proof.
  intros Hf back front o r Hb Hg H. unfold blender in H. destruct (negb _); [|exact (normal_grey _ _ _ _ _ Hb Hg H)].
  apply bind_ok in H as (n & E1 & H). apply bind_ok in H as (b & E2 & H). apply bind_ok in H as (m & E3 & H).
  apply bind_ok in H as (u & _ & H). apply bind_ok in H as (v & _ & H).
  pose proof (normal_grey _ _ _ _ _ Hb Hg E1) as N. pose proof (Hf _ _ _ _ Hb Hg E2) as B.
  pose proof (merge_grey _ _ _ _ _ N B E3) as M. exact (merge_grey _ _ _ _ _ M B H).
Qed.
Lemma channel_grey c g back front o r : grey back -> grey front -> blend_channel c g back front o = Ok r -> grey r.
Proof.
  intros Hb Hf H. unfold blend_channel in H. pose proof Hb as [B1 B2]. pose proof Hf as [F1 F2]. rewrite B1, B2, F1, F2 in H.
  apply bind_ok in H as (x & E1 & H). apply bind_ok in H as (y & E2 & H). apply bind_ok in H as (z & E3 & H).
  assert (y = x) as -> by congruence. assert (z = x) as -> by congruence.
  eapply normal_grey; [exact Hb| |exact H]. split; reflexivity.
Qed.
Lemma luminocity_grey v lum : exists w, set_luminocity v v v lum = (w, w, w).
Proof.
  unfold set_luminocity, clip_color. set (x := fadd v _). destruct (fltb _ _); destruct (fltb _ _); eexists; reflexivity.
Qed.

Lemma mode_grey m back front o : ~ tinting m -> grey back -> grey front ->
  forall c f r, blend_mode_to_blend_fn c m = Ok f -> f back front o = Ok r -> grey r.
Proof.
  intros Hm Hb Hf c f r Ef Er.
  destruct m; try (exfalso; apply Hm; unfold tinting; cbn; tauto); cbn [blend_mode_to_blend_fn] in Ef; try discriminate;
    injection Ef as <-; try (exact (normal_grey _ _ _ _ _ Hb Hf Er));
    (eapply blender_grey; [|exact Hb|exact Hf|exact Er]); clear back front o r Hb Hf Er; intros back front o r Hb Hf Er;
    try (exact (channel_grey _ _ _ _ _ _ Hb Hf Er)); pose proof Hb as [B1 B2]; pose proof Hf as [F1 F2].
  - (* colour *)
    unfold hsl_color_baseline in Er. rewrite B1, B2, F1, F2 in Er. destruct (luminocity_grey (f_of_Z (pb front)) (luminosity (f_of_Z (pb back)) (f_of_Z (pb back)) (f_of_Z (pb back)))) as (w & Ew).
    rewrite Ew in Er. apply bind_ok in Er as (q & Eq & Er). apply from_f64_grey in Eq. exact (normal_grey _ _ _ _ _ Hb Eq Er).
  - unfold hsl_luminosity_baseline in Er. rewrite B1, B2, F1, F2 in Er. destruct (luminocity_grey (f_of_Z (pb back)) (luminosity (f_of_Z (pb front)) (f_of_Z (pb front)) (f_of_Z (pb front)))) as (w & Ew).
    rewrite Ew in Er. apply bind_ok in Er as (q & Eq & Er). apply from_f64_grey in Eq. exact (normal_grey _ _ _ _ _ Hb Eq Er).
  - unfold addition_baseline in Er. rewrite B1, B2, F1, F2 in Er.
    apply bind_ok in Er as (x & E1 & Er). apply bind_ok in Er as (y & E2 & Er). apply bind_ok in Er as (z & E3 & Er).
    assert (y = x) as -> by congruence. assert (z = x) as -> by congruence.
    apply bind_ok in Er as (q & Eq & Er). apply from_i32_grey in Eq. exact (normal_grey _ _ _ _ _ Hb Eq Er).
  - unfold subtract_baseline in Er. rewrite B1, B2, F1, F2 in Er.
    apply bind_ok in Er as (x & E1 & Er). apply bind_ok in Er as (y & E2 & Er). apply bind_ok in Er as (z & E3 & Er).
    assert (y = x) as -> by congruence. assert (z = x) as -> by congruence.
    apply bind_ok in Er as (q & Eq & Er). apply from_i32_grey in Eq. exact (normal_grey _ _ _ _ _ Hb Eq Er).
Qed.

Lemma quad_flat k : forall l r g b a (f : Z -> color), quad (flat_map (fun k => [red (f k); green (f k); blue (f k); alpha (f k)]) l) k = Some (r, g, b, a) ->
  exists z, r = red (f z) /\ g = green (f z) /\ b = blue (f z).
Proof.
  induction k as [|k IH]; intros [|v l] r g b a f H; try (unfold quad in H; rewrite ?skipn_nil in H; cbn in H; discriminate).
  - cbn in H. injection H as <- <- <- _. now exists v.
  - cbn [flat_map app] in H. rewrite quad_cons in H. exact (IH l r g b a f H).
Qed.
Lemma quad_grey k : forall l r g b a, quad (gray_rgba l) k = Some (r, g, b, a) -> r = g /\ g = b.
Proof.
  induction k as [|k IH]; intros [|v [|w l]] r g b a H; try (unfold quad in H; cbn [gray_rgba] in H; rewrite ?skipn_nil in H; cbn in H; discriminate).
  - cbn in H. injection H as <- <- <- _. now split.
  - cbn [gray_rgba] in H. rewrite quad_cons in H. exact (IH l r g b a H).
Qed.

Lemma image_grey inflate s cel image w x y p : grey_sprite s -> cel_image inflate s cel image -> pixel w image x y = Some p -> grey p.
Proof.
  intros Hg (im & _ & Hd) Hp. unfold decoded in Hd. unfold grey_sprite in Hg. unfold pixel in Hp.
  destruct (quad image _) as [[[[r g] b] a]|] eqn:E; [|discriminate]. injection Hp as <-.
  destruct (h_color_depth _); try contradiction.
  - destruct Hd as (q & _ & _ & ->). exact (quad_grey _ _ _ _ _ _ E).
  - destruct Hd as (q & pal & _ & Hpal & _ & ->). specialize (Hg pal Hpal).
    apply quad_flat in E as (z & -> & -> & ->).
    destruct (nth_in_or_default (Z.to_nat z) pal black) as [Hin|Hin]; [|rewrite Hin; split; reflexivity].
    rewrite Forall_forall in Hg. exact (Hg _ Hin).
Qed.

Lemma composed_grey c inflate s sel x y cels : grey_sprite s ->
  (forall cel l, In cel cels -> drawn s sel cel = Some l -> ~ tinting (ly_blend_mode l)) ->
  forall back p, composed c inflate s sel x y cels back p -> grey back -> grey p.
Proof.
  intros Hg S back p H. induction H as [back|cel cels back p Hs H IH|cel cels back l image front f mid p Hdr Hcov Him Hpx Hf Hm H IH]; intro Hb.
  - exact Hb.
  - apply IH; [|exact Hb]. intros cel' l Hin. apply S. now right.
  - apply IH; [intros cel' l' Hin; apply S; now right|].
    exact (mode_grey (ly_blend_mode l) back front (ly_opacity l) (S cel l (or_introl eq_refl) Hdr) Hb (image_grey _ _ _ _ _ _ _ _ Hg Him Hpx) c f mid Hf Hm).
Qed.

Lemma render_grey c i s : cfg_ok c -> is_bytes i -> addressable c i -> load c i = Ok s -> grey_sprite s ->
  forall inflate, inflate_ok inflate -> sprite_fits c s ->
  forall sel k sf, nth_error (api_frames s) k = Some sf ->
  (forall cel l, In cel (sf_cels sf) -> drawn s sel cel = Some l -> ~ tinting (ly_blend_mode l)) ->
  forall target r, is_bytes target -> render_frame c inflate s (Z.of_nat k) target sel = Ok r ->
  forall x y back, 0 <= x < canvas_width s -> 0 <= y < canvas_height s ->
  pixel (canvas_width s) target x y = Some back -> grey back ->
  exists p, pixel (canvas_width s) r x y = Some p /\ grey p.
Proof.
  intros Hc Hi Ha Hl Hg inflate Hinf Hfit sel k sf Hk HM t r Ht Hr x y back Hx Hy Hb Hgb.
  destruct (render_composes c i s Hc Hi Ha Hl inflate Hinf Hfit sel k sf t r Hk Ht Hr x y Hx Hy) as (b & p & P1 & P2 & C).
  assert (b = back) as -> by congruence. exists p. split; [exact P2|]. exact (composed_grey c inflate s sel x y _ Hg HM back p C Hgb).
Qed.
