(** Layer opacity moved into the pictures (C117). *)
From Verif.Model Require Import Loader.
From Verif.Spec Require Import Bytes ImageSpec BlendSpec RenderSpec Refusals Composite Made Convert Baked.
From Verif.Proofs Require Import BlendFacts BlendProps CompositeProps ImageFacts RenderFacts RenderProps CanvasProps MadeProps UnpackProps FileFinal TurnProps SimProps.

Lemma faded_px o p q : is_px p -> is_byte o -> faded o p q -> is_px q /\ pa q = div255 (pa p * o).
Proof.
  intros Hp Ho (E1 & E2 & E3 & R). pose proof Hp as (H1 & H2 & H3 & H4).
  apply rounded_div255 in R; [|now apply prod_byte]. split; [|exact R]. unfold is_px. rewrite E1, E2, E3, R.
  repeat split; try apply H1; try apply H2; try apply H3; apply div255_byte, prod_byte; assumption.
Qed.
Lemma div255_whole a : is_byte a -> div255 (a * 255) = a.
Proof. intro H. symmetry. apply rounded_div255; [unfold is_byte in H; lia|]. unfold rounded, is_byte in *. lia. Qed.

(** Mode normal *)
Lemma normal_px_faded back p q o : is_px back -> is_px p -> is_byte o -> faded o p q ->
  normal_px back q 255 = normal_px back p o.
Proof.
  intros Hb Hp Ho F. destruct (faded_px o p q Hp Ho F) as [Hq E]. destruct F as (E1 & E2 & E3 & _).
  unfold normal_px. rewrite E1, E2, E3. rewrite (div255_whole (pa q)) by apply Hq. rewrite E.
  destruct (pa back =? 0); [reflexivity|].
  destruct (Z.eqb_spec (pa p) 0) as [Z0|N0].
  { rewrite Z0. reflexivity. }
  destruct (Z.eqb_spec (div255 (pa p * o)) 0) as [Z1|N1]; [|reflexivity].
  assert (Hz : pa back <> 0 \/ pa back = 0) by lia.
  rewrite Z1. unfold over_channel, over_alpha. rewrite !Z.mul_0_r. change (div255 0) with 0. cbn [Z.quot Z.quotrem fst].
  rewrite !Z.add_0_r. replace (0 + pa back - 0) with (pa back) by lia. apply px_eta.
Qed.

Lemma over_faded back p q o n : is_px back -> is_px p -> is_byte o -> faded o p q -> over back p o n -> over back q 255 n.
Proof.
  intros Hb Hp Ho F H. destruct (faded_px o p q Hp Ho F) as [Hq _]. apply over_iff; [assumption..|unfold is_byte; lia|].
  rewrite (normal_px_faded back p q o) by assumption. now apply over_iff in H.
Qed.

(** All other separable modes *)
Lemma composite_faded m back p q o r : separable m -> is_px back -> is_px p -> is_byte o -> faded o p q ->
  composite m back p o r -> composite m back q 255 r.
Proof.
  intros Hm Hb Hp Ho F (n & Hn & H). pose proof F as (E1 & E2 & E3 & R). destruct (faded_px o p q Hp Ho F) as [Hq Ea].
  exists n. split; [exact (over_faded back p q o n Hb Hp Ho F Hn)|]. destruct (pa back =? 0); [exact H|].
  assert (G : (exists p0 b t share both, mode_colour m back p p0 /\ over back p0 o b /\
                  rounded (pa p * o) 255 share /\ rounded (pa back * share) 255 both /\
                  px_partway n b (pa back) t /\ px_partway t b both r) ->
              exists p0 b t share both, mode_colour m back q p0 /\ over back p0 255 b /\
                  rounded (pa q * 255) 255 share /\ rounded (pa back * share) 255 both /\
                  px_partway n b (pa back) t /\ px_partway t b both r).
  { intros (p0 & b & t & share & both & (C1 & C2 & C3 & C4) & H2 & H3 & H4 & H5 & H6).
    assert (Hp0 : is_px p0).
    { destruct (mode_eq m back p Hm Hb Hp) as (p1 & (P1 & P2 & P3 & P4 & P5) & _).
      assert (C0 : mode_colour m back p p0) by (repeat split; assumption).
      assert (C' : mode_colour m back p p1) by (repeat split; try assumption; destruct m; assumption).
      rewrite (mode_colour_unique m back p p0 p1 Hb Hp C0 C'). exact P1. }
    exists (mkpx (pr p0) (pg p0) (pb p0) (pa q)), b, t, share, both. cbn [mkpx pr pg pb pa].
    split; [unfold mode_colour; rewrite E1, E2, E3; do 3 (split; [assumption|]); reflexivity|].
    split. { apply (over_faded back p0 _ o b); try assumption. unfold faded. cbn [mkpx pr pg pb pa]. rewrite C4. do 3 (split; [reflexivity|]). exact R. }
    split. { assert (share = pa q) as -> by (apply (rounded_unique (pa p * o) 255); [lia|exact H3|exact R]). unfold rounded. lia. }
    auto. }
  destruct m; try exact H; apply G, H.
Qed.

Lemma mode_faded c m f back p q o : separable m -> is_px back -> is_px p -> is_byte o -> faded o p q ->
  blend_mode_to_blend_fn c m = Ok f -> f back p o = f back q 255.
Proof.
  intros Hm Hb Hp Ho F Ef. destruct (faded_px o p q Hp Ho F) as [Hq _].
  assert (B : is_byte 255) by (unfold is_byte; lia).
  destruct (composite_iff m back p o Hm Hb Hp Ho) as (r & _ & U & V).
  destruct (composite_iff m back q 255 Hm Hb Hq B) as (r' & _ & U' & V').
  assert (r' = r) as ->. { symmetry. apply U'. apply (composite_faded m back p q o); try assumption. now apply U. }
  destruct (V c) as (g & Eg & Er). destruct (V' c) as (g' & Eg' & Er').
  assert (g = f) as -> by congruence. assert (g' = f) as -> by congruence. congruence.
Qed.

Section Bake.
Context (c : cfg) (inflate : inflater) (s s' : ase_file) (sel : layer_selection).
Hypothesis Hc : cfg_ok c.
Hypothesis Hinf : inflate_ok inflate.
Hypothesis Hty : typed c s.
Hypothesis Hty' : typed c s'.
Hypothesis Hfit : made_fits c s.
Hypothesis Hfit' : made_fits c s'.
Hypothesis HB : baked s s'.

Lemma baked_drawn cel cel' : baked_cel s s' cel cel' ->
  match drawn s sel cel, drawn s' sel cel' with
  | None, None => True
  | Some l, Some l' => opaque_layer l l' /\ nth_error (af_layers s) (Z.to_nat (fc_layer_index cel)) = Some l
  | _, _ => False
  end.
Proof.
  intros (El & _). destruct HB as (_ & _ & _ & HL & _). unfold drawn. rewrite El.
  pose proof (Forall2_nth _ _ _ HL (Z.to_nat (fc_layer_index cel))) as H.
  destruct (nth_error (af_layers s) _) as [l|], (nth_error (af_layers s') _) as [l'|]; try contradiction; [|exact I].
  unfold opaque_layer in *. subst l'. cbn [ly_layer_type].
  assert (C : forall k o, chosen sel k {| ly_name := ly_name l; ly_opacity := o; ly_blend_mode := ly_blend_mode l;
                                ly_visible := ly_visible l; ly_layer_type := ly_layer_type l |} = chosen sel k l) by (intros; now destruct sel).
  rewrite C. destruct (ly_layer_type l) eqn:T; try exact I; destruct (chosen sel _ l); try exact I; (split; [now rewrite T|reflexivity]).
Qed.

Lemma baked_views cel cel' : baked_cel s s' cel cel' ->
  exists l im im', nth_error (af_layers s) (Z.to_nat (fc_layer_index cel)) = Some l /\
    cel_view inflate s cel (im_data im) /\ cel_view inflate s' cel' (im_data im') /\
    forall x y, covers cel x y = true -> exists p q,
      pixel (fst (fc_size cel)) (im_data im) (x - fst (fc_origin cel)) (y - snd (fc_origin cel)) = Some p /\
      pixel (fst (fc_size cel')) (im_data im') (x - fst (fc_origin cel')) (y - snd (fc_origin cel')) = Some q /\
      is_px p /\ faded (ly_opacity l) p q.
Proof.
  intros (El & Eo & Es & l & im & im' & Hl & Hi & Hi' & P & P' & S & S' & HP). pose proof HB as (D & D' & _).
  exists l, im, im'. split; [exact Hl|].
  assert (V : cel_view inflate s cel (im_data im)) by (apply (plain_view inflate s cel im); auto).
  split; [exact V|]. split; [apply (plain_view inflate s' cel' im'); auto; congruence|].
  intros x y Hcv. rewrite Eo, Es.
  assert (W : fst (fc_size cel) = im_width im) by (rewrite <- S; reflexivity).
  assert (H : snd (fc_size cel) = im_height im) by (rewrite <- S; reflexivity).
  assert (R : 0 <= x - fst (fc_origin cel) < im_width im /\ 0 <= y - snd (fc_origin cel) < im_height im).
  { rewrite <- W, <- H. unfold covers in Hcv. destruct (fc_origin cel), (fc_size cel). cbn in *. lia. }
  assert (L : im_width im * im_height im * 4 <= zlen (im_data im)) by (destruct P as [_ ->]; unfold rgba_size; lia).
  pose proof (pixel_at_px (im_width im) (im_height im) (im_data im) _ _ (proj1 R) (proj2 R) L) as E.
  destruct (HP _ _ _ (proj1 R) (proj2 R) E) as (q & Eq & F). eexists. exists q. rewrite W. split; [exact E|]. split; [exact Eq|].
  split; [|exact F]. eapply pixel_px; [|exact E]. exact (view_bytes c s Hty inflate Hinf cel _ V).
Qed.

Lemma bake_step cel cel' x y back mid : baked_cel s s' cel cel' -> is_px back ->
  (forall l, drawn s sel cel = Some l -> ~ hsl (ly_blend_mode l)) ->
  stacked c inflate s sel x y [cel] back mid <-> stacked c inflate s' sel x y [cel'] back mid.
Proof.
  intros HR Pb Hh. pose proof (baked_drawn cel cel' HR) as HD. destruct (baked_views cel cel' HR) as (l & im & im' & Hl & V & V' & HP).
  assert (Ecov : covers cel' x y = covers cel x y) by (destruct HR as (_ & Eo & Es & _); unfold covers; now rewrite Eo, Es).
  split; intro H; inversion H as [|? ? ? ? Hskip H0|? ? ? l0 view front g mid0 ? Hdr Hcov Hv Hpx Hg Hm H0]; subst.
  - inversion H0; subst. apply stacked_skip; [|constructor]. destruct Hskip as [E|E]; [|right; congruence].
    rewrite E in HD. destruct (drawn s' sel cel'); [contradiction|now left].
  - inversion H0; subst. rewrite Hdr in HD. destruct (drawn s' sel cel') as [l'|] eqn:Hdr'; [|contradiction].
    destruct HD as [HO Hl0]. assert (l0 = l) as -> by congruence.
    assert (Ho : is_byte (ly_opacity l)) by (eapply made_opacity; [exact Hty|]; eapply drawn_layer; eassumption).
    rewrite (view_unique s inflate cel view (im_data im) Hv V) in Hpx.
    destruct (HP x y Hcov) as (p & q & Ep & Eq & Pp & F). assert (p = front) as -> by congruence.
    unfold opaque_layer in HO. subst l'.
    assert (Hsep : separable (ly_blend_mode l)).
    { destruct (mode_cases (ly_blend_mode l)) as [[K|K]|[w K]]; [exact K|now apply (Hh l) in K|]. rewrite K in Hg. discriminate. }
    eapply (stacked_draw _ _ _ _ _ _ cel' [] back _ (im_data im') q g mid);
      [exact Hdr'|congruence|exact V'|exact Eq|exact Hg| |constructor].
    cbn [ly_opacity]. rewrite <- (mode_faded c (ly_blend_mode l) g back front q (ly_opacity l)); assumption.
  - inversion H0; subst. apply stacked_skip; [|constructor]. destruct Hskip as [E|E]; [|right; congruence].
    rewrite E in HD. destruct (drawn s sel cel); [contradiction|now left].
  - inversion H0; subst. rewrite Hdr in HD. destruct (drawn s sel cel) as [l'|] eqn:Hdr'; [|contradiction].
    destruct HD as [HO Hl0]. assert (l' = l) as -> by congruence.
    assert (Ho : is_byte (ly_opacity l)) by (eapply made_opacity; [exact Hty|]; eapply drawn_layer; eassumption).
    rewrite (view_unique s' inflate cel' view (im_data im') Hv V') in Hpx. rewrite Ecov in Hcov.
    destruct (HP x y Hcov) as (p & q & Ep & Eq & Pp & F). assert (q = front) as -> by congruence.
    unfold opaque_layer in HO. subst l0. cbn [ly_blend_mode ly_opacity] in *.
    assert (Hsep : separable (ly_blend_mode l)).
    { destruct (mode_cases (ly_blend_mode l)) as [[K|K]|[w K]]; [exact K|now apply (Hh l) in K|]. rewrite K in Hg. discriminate. }
    eapply (stacked_draw _ _ _ _ _ _ cel [] back _ (im_data im) p g mid);
      [exact Hdr'|exact Hcov|exact V|exact Ep|exact Hg| |constructor].
    rewrite (mode_faded c (ly_blend_mode l) g back p front (ly_opacity l)); assumption.
Qed.

Lemma bake_stack x y cels cels' : Forall2 (baked_cel s s') cels cels' ->
  (forall cel l, In cel cels -> drawn s sel cel = Some l -> ~ hsl (ly_blend_mode l)) ->
  forall back p, is_px back -> stacked c inflate s sel x y cels back p <-> stacked c inflate s' sel x y cels' back p.
Proof.
  induction 1 as [|cel cel' cels0 cels1 HR HF IH]; intros Hh back p Pb.
  { split; intro H; inversion H; subst; constructor. }
  assert (S : forall mid, stacked c inflate s sel x y [cel] back mid <-> stacked c inflate s' sel x y [cel'] back mid)
    by (intro mid; apply bake_step; [exact HR|exact Pb|intro l; apply Hh; now left]).
  assert (IH' := IH (fun cel l Hin => Hh cel l (or_intror Hin))).
  change (cel :: cels0) with ([cel] ++ cels0). change (cel' :: cels1) with ([cel'] ++ cels1).
  split; intro H; apply stacked_app in H; destruct H as (m & H1 & H2); apply (stacked_join _ _ _ _ _ _ _ _ _ m); try (now apply S);
    (assert (Pm : is_px m) by first [exact (stacked_px c s inflate sel x y _ _ _ Hc Hty Hinf Pb H1)|exact (stacked_px c s' inflate sel x y _ _ _ Hc Hty' Hinf Pb H1)]);
    now apply IH'.
Qed.

Theorem baked_frames k target : is_bytes target ->
  (forall sf cel l, nth_error (api_frames s) k = Some sf -> In cel (sf_cels sf) -> drawn s sel cel = Some l -> ~ hsl (ly_blend_mode l)) ->
  render_frame c inflate s (Z.of_nat k) target sel = render_frame c inflate s' (Z.of_nat k) target sel.
Proof.
  intros Hb Hh. pose proof HB as (_ & _ & Hcv & _ & HFr).
  assert (Ew : canvas_width s' = canvas_width s) by (now injection Hcv).
  assert (Eh : canvas_height s' = canvas_height s) by (now injection Hcv).
  assert (Esz : canvas_size s' = canvas_size s) by (unfold canvas_size; now rewrite Ew, Eh).
  destruct (made_other c s Hc Hty Hfit inflate Hinf sel k target Hb) as [HE HN].
  destruct (made_other c s' Hc Hty' Hfit' inflate Hinf sel k target Hb) as [HE' HN']. rewrite Esz in HE', HN'.
  destruct (Z.ltb_spec (zlen target) (canvas_size s)) as [Hlt|Hge].
  { rewrite (proj2 (HE TargetBufferTooSmall target)) by auto. now rewrite (proj2 (HE' TargetBufferTooSmall target)) by auto. }
  pose proof (Forall2_nth _ _ _ HFr k) as HK. unfold api_frames in *.
  destruct (nth_error (af_frames s) k) as [sf|] eqn:Hk, (nth_error (af_frames s') k) as [sf'|] eqn:Hk'; try contradiction.
  2:{ now rewrite HN, HN' by auto. }
  assert (Hh' : forall cel l, In cel (sf_cels sf) -> drawn s sel cel = Some l -> ~ hsl (ly_blend_mode l)) by (intros cel l; now apply Hh).
  (* each cel of the second sprite belongs to one of the first *)
  assert (Back : forall cel', In cel' (sf_cels sf') -> exists cel, In cel (sf_cels sf) /\ baked_cel s s' cel cel').
  { clear - HK. induction HK as [|a b la lb H HF IH]; intros cel' Hin; [destruct Hin|]. destruct Hin as [->|Hin].
    - exists a. split; [now left|exact H].
    - destruct (IH cel' Hin) as (cel & H1 & H2). exists cel. split; [now right|exact H2]. }
  assert (Forth : forall cel, In cel (sf_cels sf) -> exists cel', In cel' (sf_cels sf') /\ baked_cel s s' cel cel').
  { clear - HK. induction HK as [|a b la lb H HF IH]; intros cel Hin; [destruct Hin|]. destruct Hin as [->|Hin].
    - exists b. split; [now left|exact H].
    - destruct (IH cel Hin) as (cel' & H1 & H2). exists cel'. split; [now right|exact H2]. }
  assert (HV : forall cel l, In cel (sf_cels sf) -> drawn s sel cel = Some l -> (exists view, cel_view inflate s cel view) /\ ~ hsl (ly_blend_mode l)).
  { intros cel l Hin Hdr. split; [|eapply Hh'; eassumption]. destruct (Forth cel Hin) as (cel' & _ & HR).
    destruct (baked_views cel cel' HR) as (_ & im & _ & _ & V & _). eauto. }
  assert (HM : forall cel' l', In cel' (sf_cels sf') -> drawn s' sel cel' = Some l' ->
    (exists view, cel_view inflate s' cel' view) /\ exists cel l, In cel (sf_cels sf) /\ drawn s sel cel = Some l /\ ly_blend_mode l' = ly_blend_mode l).
  { intros cel' l' Hin Hdr. destruct (Back cel' Hin) as (cel & Hin' & HR). pose proof (baked_drawn cel cel' HR) as HD. rewrite Hdr in HD.
    destruct (drawn s sel cel) as [l|] eqn:E; [|contradiction]. destruct HD as [HO _]. unfold opaque_layer in HO.
    destruct (baked_views cel cel' HR) as (_ & _ & im' & _ & _ & V & _). split; [eauto|]. exists cel, l. subst l'. auto. }
  assert (HV' : forall cel l, In cel (sf_cels sf') -> drawn s' sel cel = Some l -> (exists view, cel_view inflate s' cel view) /\ ~ hsl (ly_blend_mode l)).
  { intros cel l Hin Hdr. destruct (HM cel l Hin Hdr) as (V & cel0 & l0 & H1 & H2 & ->). split; [exact V|]. now apply (Hh' cel0 l0). }
  assert (IFF : forall r, render_frame c inflate s (Z.of_nat k) target sel = Ok r <-> render_frame c inflate s' (Z.of_nat k) target sel = Ok r).
  { intro r. rewrite (made_exactly c s Hc Hty Hfit inflate Hinf sel k sf target r Hk Hb).
    rewrite (made_exactly c s' Hc Hty' Hfit' inflate Hinf sel k sf' target r Hk' Hb). rewrite Esz, Ew, Eh.
    assert (Sta : forall x y, (exists back p, pixel (canvas_width s) target x y = Some back /\ pixel (canvas_width s) r x y = Some p /\
       stacked c inflate s sel x y (sf_cels sf) back p) <-> (exists back p, pixel (canvas_width s) target x y = Some back /\ pixel (canvas_width s) r x y = Some p /\
       stacked c inflate s' sel x y (sf_cels sf') back p)).
    { intros x y. split; intros (back & p & E1 & E2 & H); exists back, p; (split; [exact E1|]); (split; [exact E2|]);
        apply (bake_stack x y _ _ HK Hh' back p); try exact H; eapply pixel_px; eassumption. }
    split; intros (A1 & A2 & A3 & A4 & A5); (split; [exact A1|]); (split; [exact A2|]); (split; [exact A3|]);
      (split; [|intros x y Hx Hy; apply Sta, A5; assumption]).
    - intros cel l Hin Hdr. destruct (HM cel l Hin Hdr) as (V & cel0 & l0 & H1 & H2 & ->). split; [exact V|]. now apply (A4 cel0 l0).
    - intros cel l Hin Hdr. destruct (HV cel l Hin Hdr) as [V _]. split; [exact V|]. destruct (Forth cel Hin) as (cel' & Hin' & HR).
      pose proof (baked_drawn cel cel' HR) as HD. rewrite Hdr in HD. destruct (drawn s' sel cel') as [l'|] eqn:E; [|contradiction].
      destruct HD as [HO _]. unfold opaque_layer in HO. subst l'. exact (proj2 (A4 cel' _ Hin' E)). }
  destruct (render_frame c inflate s (Z.of_nat k) target sel) as [r|[e t]|q] eqn:R.
  - symmetry. now apply IFF.
  - destruct (proj1 (HE e t) eq_refl). lia.
  - destruct (render_frame c inflate s' (Z.of_nat k) target sel) as [r|[e t]|q'] eqn:R'.
    + pose proof (proj2 (IFF r) eq_refl). discriminate.
    + destruct (proj1 (HE' e t) eq_refl). lia.
    + apply (only_modes c inflate s sel k sf target q Hc Hinf Hty Hfit Hk Hb HV) in R.
      apply (only_modes c inflate s' sel k sf' target q' Hc Hinf Hty' Hfit' Hk' Hb HV') in R'. congruence.
Qed.
End Bake.
