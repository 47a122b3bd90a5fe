(** What lies at a pixel (C122). *)
From Verif.Model Require Import Loader.
From Verif.Spec Require Import Bytes ImageSpec BlendSpec RenderSpec Refusals Made Convert Trimmed Cut.
From Verif.Proofs Require Import BlendFacts BlendProps ImageFacts RenderFacts RenderProps CanvasProps MadeProps UnpackProps TurnProps EditProps SimProps TrimProps.

Inductive blended (c : cfg) : list (px * blend_mode * Z) -> px -> px -> Prop :=
| blended_nil back : blended c [] back back
| blended_cons front m o f ts back mid p : blend_mode_to_blend_fn c m = Ok f -> f back front o = Ok mid ->
    blended c ts mid p -> blended c ((front, m, o) :: ts) back p.

Lemma stacked_lying c inflate s sel x y cels : forall back p, stacked c inflate s sel x y cels back p <->
  exists ts, lying inflate s sel x y cels ts /\ blended c ts back p.
Proof.
  induction cels as [|cel cels IH]; intros back p; split.
  - intros H. inversion H; subst. exists []. split; constructor.
  - intros (ts & H & B). inversion H; subst. inversion B; subst. constructor.
  - intros H. inversion H as [|? ? ? ? Hskip H0|? ? ? l view front g mid ? Hdr Hcov Hv Hpx Hg Hm H0]; subst.
    + apply IH in H0. destruct H0 as (ts & L & B). exists ts. split; [now constructor|exact B].
    + apply IH in H0. destruct H0 as (ts & L & B). exists ((front, ly_blend_mode l, ly_opacity l) :: ts). split.
      * apply lying_show; [exact Hdr| |exact L]. split; [exact Hcov|eauto].
      * econstructor; eassumption.
  - intros (ts & H & B). inversion H as [|? ? ? Hskip H0|? ? l front ts' Hdr Hs H0]; subst.
    + apply stacked_skip; [exact Hskip|]. apply IH. eauto.
    + inversion B; subst. destruct Hs as (Hcov & v & Hv & Hpx). eapply (stacked_draw _ _ _ _ _ _ cel cels back l v front); try eassumption.
      apply IH. eauto.
Qed.

Lemma lying_unique inflate s sel x y cels : forall ts ts', lying inflate s sel x y cels ts -> lying inflate s sel x y cels ts' -> ts = ts'.
Proof.
  induction cels as [|cel cels IH]; intros ts ts' H H'; inversion H as [|? ? ? K G0|? ? l p t0 D S G0]; inversion H' as [|? ? ? K' G1|? ? l' p' t1 D' S' G1]; subst.
  - reflexivity.
  - now apply IH.
  - destruct S' as [E _]. destruct K; congruence.
  - destruct S as [E _]. destruct K'; congruence.
  - assert (l' = l) as -> by congruence. rewrite (IH _ _ G0 G1). f_equal. f_equal. f_equal.
    destruct S as (_ & v & V & E), S' as (_ & v' & V' & E'). rewrite (view_unique s inflate cel v' v V' V) in E'. congruence.
Qed.
Lemma blended_unique c ts : forall back p q, blended c ts back p -> blended c ts back q -> p = q.
Proof.
  induction ts as [|[[f m] o] ts IH]; intros back p q H H'; inversion H; inversion H'; subst; [reflexivity|].
  eapply IH; [eassumption|]. congruence.
Qed.

Lemma lying_frames c inflate s s' sel sel' : cfg_ok c -> inflate_ok inflate ->
  typed c s -> typed c s' -> made_fits c s -> made_fits c s' -> canvas s' = canvas s ->
  forall k k' sf sf', nth_error (api_frames s) k = Some sf -> nth_error (api_frames s') k' = Some sf' ->
  (ready inflate s sel (sf_cels sf) <-> ready inflate s' sel' (sf_cels sf')) ->
  (forall x y, on_canvas s x y -> forall ts,
     lying inflate s sel x y (sf_cels sf) ts <-> lying inflate s' sel' x y (sf_cels sf') ts) ->
  forall target r, is_bytes target ->
  (render_frame c inflate s (Z.of_nat k) target sel = Ok r <-> render_frame c inflate s' (Z.of_nat k') target sel' = Ok r).
Proof.
  intros Hc Hinf Hty Hty' Hfit Hfit' HC k k' sf sf' Hk Hk' HR HL t r Hb.
  rewrite (made_exactly c s Hc Hty Hfit inflate Hinf sel k sf t r Hk Hb).
  rewrite (made_exactly c s' Hc Hty' Hfit' inflate Hinf sel' k' sf' t r Hk' Hb).
  unfold canvas in HC. injection HC as Ew Eh. unfold canvas_size. rewrite Ew, Eh.
  change (ready inflate s sel (sf_cels sf)) with (forall cel l, In cel (sf_cels sf) -> drawn s sel cel = Some l ->
      (exists view, cel_view inflate s cel view) /\ known_mode (ly_blend_mode l)) in HR.
  change (ready inflate s' sel' (sf_cels sf')) with (forall cel l, In cel (sf_cels sf') -> drawn s' sel' cel = Some l ->
      (exists view, cel_view inflate s' cel view) /\ known_mode (ly_blend_mode l)) in HR.
  rewrite HR.
  assert (HS : forall x y, 0 <= x < canvas_width s -> 0 <= y < canvas_height s -> forall back p,
    stacked c inflate s sel x y (sf_cels sf) back p <-> stacked c inflate s' sel' x y (sf_cels sf') back p).
  { intros x y Hx Hy back p. rewrite !stacked_lying.
    split; intros (ts & L & B); exists ts; (split; [|exact B]); now apply (HL x y (conj Hx Hy)). }
  split; intros (A1 & A2 & A3 & A4 & A5); do 4 (split; [assumption|]); intros x y Hx Hy;
    destruct (A5 x y Hx Hy) as (back & p & B1 & B2 & B3); exists back, p; (split; [exact B1|]); (split; [exact B2|]);
    now apply (HS x y Hx Hy).
Qed.

Lemma lying_pixel c inflate s s' sel sel' : cfg_ok c -> inflate_ok inflate ->
  typed c s -> typed c s' -> made_fits c s -> made_fits c s' ->
  forall k k' sf sf' target target' r r', nth_error (api_frames s) k = Some sf -> nth_error (api_frames s') k' = Some sf' ->
  is_bytes target -> is_bytes target' ->
  render_frame c inflate s (Z.of_nat k) target sel = Ok r -> render_frame c inflate s' (Z.of_nat k') target' sel' = Ok r' ->
  forall x y x' y', on_canvas s x y -> on_canvas s' x' y' ->
  (exists ts, lying inflate s sel x y (sf_cels sf) ts /\ lying inflate s' sel' x' y' (sf_cels sf') ts) ->
  pixel (canvas_width s) target x y = pixel (canvas_width s') target' x' y' ->
  pixel (canvas_width s) r x y = pixel (canvas_width s') r' x' y'.
Proof.
  intros Hc Hinf Hty Hty' Hfit Hfit' k k' sf sf' t t' r r' Hk Hk' Hb Hb' R R' x y x' y' [Hx Hy] [Hx' Hy'] (ts & L & L') E.
  apply (made_exactly c s Hc Hty Hfit inflate Hinf sel k sf t r Hk Hb) in R. destruct R as (_ & _ & _ & _ & R).
  apply (made_exactly c s' Hc Hty' Hfit' inflate Hinf sel' k' sf' t' r' Hk' Hb') in R'. destruct R' as (_ & _ & _ & _ & R').
  destruct (R x y Hx Hy) as (back & p & B1 & B2 & B3). destruct (R' x' y' Hx' Hy') as (back' & p' & C1 & C2 & C3).
  rewrite B2, C2. f_equal. assert (back' = back) as -> by congruence.
  apply stacked_lying in B3, C3. destruct B3 as (ts1 & L1 & Bl1), C3 as (ts2 & L2 & Bl2).
  rewrite <- (lying_unique _ _ _ _ _ _ _ _ L L1) in Bl1. rewrite <- (lying_unique _ _ _ _ _ _ _ _ L' L2) in Bl2.
  eapply blended_unique; eassumption.
Qed.

Section Cut.
Context (c : cfg) (inflate : inflater) (s s' : ase_file) (sel sel' : layer_selection).
Hypothesis Hc : cfg_ok c.
Hypothesis Hinf : inflate_ok inflate.
Hypothesis Hty : typed c s.
Hypothesis Hfit : made_fits c s.

Lemma drawn_as_some cel cel' l : drawn_as s s' sel sel' cel cel' -> drawn s sel cel = Some l ->
  exists l', drawn s' sel' cel' = Some l' /\ ly_blend_mode l' = ly_blend_mode l /\ ly_opacity l' = ly_opacity l.
Proof. unfold drawn_as. intros H E. rewrite E in H. destruct (drawn s' sel' cel') as [l'|]; [eauto|contradiction]. Qed.
Lemma drawn_as_none cel cel' : drawn_as s s' sel sel' cel cel' -> drawn s sel cel = None -> drawn s' sel' cel' = None.
Proof. unfold drawn_as. intros H E. rewrite E in H. destruct (drawn s' sel' cel') as [l'|]; [contradiction|reflexivity]. Qed.

Lemma lying_none x y part : Forall (fun cel => covers cel x y = false) part ->
  forall cels ts, lying inflate s' sel' x y (part ++ cels) ts <-> lying inflate s' sel' x y cels ts.
Proof.
  induction 1 as [|cel part E F IH]; intros cels ts; [reflexivity|]. cbn [app]. etransitivity; [|apply IH]. split; intros H.
  - inversion H as [|? ? ? K H0|? ? l p t0 D [S _] H0]; subst; [exact H0|congruence].
  - apply lying_skip; [now right|exact H].
Qed.
Lemma lying_hidden x y part : Forall (fun cel => drawn s' sel' cel = None) part ->
  forall cels ts, lying inflate s' sel' x y (part ++ cels) ts <-> lying inflate s' sel' x y cels ts.
Proof.
  induction 1 as [|cel part E F IH]; intros cels ts; [reflexivity|]. cbn [app]. etransitivity; [|apply IH]. split; intros H.
  - inversion H as [|? ? ? K H0|? ? l p t0 D S H0]; subst; [exact H0|congruence].
  - apply lying_skip; [now left|exact H].
Qed.

Lemma cut_lying x y cels cels' : on_canvas s x y -> cut_cels inflate s s' sel sel' cels cels' -> Forall (fine c) cels ->
  forall ts, lying inflate s sel x y cels ts <-> lying inflate s' sel' x y cels' ts.
Proof.
  intros Hxy HC. induction HC as [|cel part cels cels' HP HC IH]; intros Hfi ts.
  { split; intros H; inversion H; constructor. }
  inversion Hfi as [|? ? Fc Fcs]; subst. specialize (IH Fcs). destruct HP as (Hne & Hv & Hp & Hon).
  destruct (Hon x y Hxy) as [Hoff Hin].
  destruct (drawn s sel cel) as [l|] eqn:Ed.
  - destruct (covers cel x y) eqn:Ec.
    + destruct (has_shows c inflate Hc Hinf s cel x y Hty Hfit Fc Hv Ec) as [p Sp].
      destruct (Hin p Sp) as (before & piece & after & -> & Spi & Hoth). apply Forall_app in Hoth. destruct Hoth as [Ob Oa].
      rewrite <- app_assoc. rewrite (lying_none x y before Ob). cbn [app].
      assert (Ep : drawn_as s s' sel sel' cel piece).
      { rewrite Forall_forall in Hp. apply Hp. apply in_or_app. right. now left. }
      destruct (drawn_as_some cel piece l Ep Ed) as (m & Em & E1 & E2).
      split; intros H; inversion H as [|? ? ? K H0|? ? l' q t0 D S H0]; subst.
      * destruct K; [congruence|]. destruct Sp. congruence.
      * assert (l' = l) as -> by congruence. rewrite <- E1, <- E2.
        assert (q = p) as -> by (destruct S as (_ & v & V & E), Sp as (_ & v' & V' & E'); rewrite (view_unique s inflate cel v' v V' V) in E'; congruence).
        apply lying_show; [exact Em|exact Spi|]. apply lying_none; [exact Oa|]. now apply IH.
      * destruct Spi as [E _]. destruct K; congruence.
      * assert (l' = m) as -> by congruence. rewrite E1, E2.
        assert (q = p) as -> by (destruct S as (_ & v & V & E), Spi as (_ & v' & V' & E'); rewrite (view_unique s' inflate piece v' v V' V) in E'; congruence).
        apply lying_show; [exact Ed|exact Sp|]. apply IH. now apply (lying_none x y after Oa).
    + rewrite (lying_none x y part (Hoff eq_refl)). rewrite <- IH. split; intros H.
      * inversion H as [|? ? ? K H0|? ? l' q t0 D [S _] H0]; subst; [exact H0|congruence].
      * apply lying_skip; [now right|exact H].
  - rewrite lying_hidden.
    + rewrite <- IH. split; intros H.
      * inversion H as [|? ? ? K H0|? ? l' q t0 D S H0]; subst; [exact H0|congruence].
      * apply lying_skip; [now left|exact H].
    + eapply Forall_impl; [|exact Hp]. intros q [E _]. now apply (drawn_as_none cel q).
Qed.

Lemma cut_ready cels cels' : cut_cels inflate s s' sel sel' cels cels' -> ready inflate s sel cels <-> ready inflate s' sel' cels'.
Proof.
  intros HC. induction HC as [|cel part cels cels' HP HC IH]; [split; intros _ ? ? []|].
  destruct HP as (Hne & Hv & Hp & _). rewrite Forall_forall in Hp. split; intros H q l Hq D.
  - apply in_app_or in Hq. destruct Hq as [Hq|Hq].
    + destruct (Hp q Hq) as [E V]. split; [exact V|]. destruct (drawn s sel cel) as [m|] eqn:Ed.
      * destruct (drawn_as_some cel q m E Ed) as (m' & Em & E1 & _). assert (m' = l) as -> by congruence. rewrite E1. apply (H cel m); [now left|exact Ed].
      * rewrite (drawn_as_none cel q E Ed) in D. discriminate.
    + apply (proj1 IH); [|exact Hq|exact D]. intros u l0 Hu. apply H. now right.
  - destruct Hq as [<-|Hq].
    + split; [exact Hv|]. destruct part as [|p part]; [now destruct Hne|]. destruct (Hp p (or_introl eq_refl)) as [E V].
      destruct (drawn_as_some cel p l E D) as (m' & Em & E1 & _). rewrite <- E1. apply (H p m'); [now left|exact Em].
    + apply (proj2 IH); [|exact Hq|exact D]. intros u l0 Hu. apply H. apply in_or_app. now right.
Qed.
End Cut.

Lemma cut_frames c inflate s s' sel sel' : cfg_ok c -> inflate_ok inflate ->
  typed c s -> typed c s' -> made_fits c s -> made_fits c s' -> cut_up inflate s s' sel sel' ->
  forall k target r, is_bytes target ->
  (render_frame c inflate s (Z.of_nat k) target sel = Ok r <-> render_frame c inflate s' (Z.of_nat k) target sel' = Ok r).
Proof.
  intros Hc Hinf Hty Hty' Hfit Hfit' (HC & HF) k t r Hb.
  destruct (nth_error (api_frames s) k) as [sf|] eqn:Hk.
  - destruct (Forall2_nth_some _ _ _ k sf HF Hk) as (sf' & Hk' & HCC).
    apply (lying_frames c inflate s s' sel sel' Hc Hinf Hty Hty' Hfit Hfit' HC k k sf sf' Hk Hk').
    + now apply cut_ready.
    + intros x y Hxy. apply (cut_lying c inflate s s' sel sel' Hc Hinf Hty Hfit x y); [exact Hxy|exact HCC|].
      exact (frames_fine c s Hty Hfit k sf Hk).
    + exact Hb.
  - assert (Hk' : nth_error (api_frames s') k = None).
    { apply nth_error_None. apply nth_error_None in Hk. unfold api_frames in *. pose proof (Forall2_length _ _ _ HF). lia. }
    destruct (made_other c s Hc Hty Hfit inflate Hinf sel k t Hb) as [HE HP].
    destruct (made_other c s' Hc Hty' Hfit' inflate Hinf sel' k t Hb) as [HE' HP'].
    destruct (Z_le_gt_dec (canvas_size s) (zlen t)) as [G|G].
    + assert (canvas_size s' <= zlen t) by (unfold canvas in HC; injection HC as Ew Eh; unfold canvas_size in *; rewrite Ew, Eh; exact G).
      rewrite (HP Hk G), (HP' Hk' H). split; discriminate.
    + assert (G' : zlen t < canvas_size s) by lia. assert (zlen t < canvas_size s') by (unfold canvas in HC; injection HC as Ew Eh; unfold canvas_size in *; rewrite Ew, Eh; exact G').
      rewrite (proj2 (HE _ _) (conj G' (conj eq_refl eq_refl))), (proj2 (HE' _ _) (conj H (conj eq_refl eq_refl))). split; discriminate.
Qed.
