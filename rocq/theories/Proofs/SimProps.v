(** Frames of two sprites compared pixel by pixel, cel by cel. *)
From Verif.Model Require Import Loader.
From Verif.Spec Require Import Bytes ImageSpec BlendSpec RenderSpec Refusals Made.
From Verif.Proofs Require Import BlendFacts BlendProps ImageFacts RenderFacts RenderProps CanvasProps MadeProps.

Lemma view_pixel c s inflate cel view x y front : cfg_ok c -> typed c s -> inflate_ok inflate -> cel_view inflate s cel view ->
  pixel (fst (fc_size cel)) view x y = Some front -> is_px front.
Proof. intros Hc Hs Hi Hv Hp. eapply pixel_px; [|exact Hp]. eapply view_bytes; eassumption. Qed.

Lemma stacked_px c s inflate sel x y cels back p : cfg_ok c -> typed c s -> inflate_ok inflate -> is_px back ->
  stacked c inflate s sel x y cels back p -> is_px p.
Proof.
  intros Hc Hs Hi Hb H. induction H as [back|cel cels back p Hskip H IH|cel cels back l view front g mid p Hdr Hcov Hv Hpx Hg Hm H IH]; auto.
  apply IH. pose proof (view_pixel c s inflate cel view _ _ front Hc Hs Hi Hv Hpx) as Pf.
  assert (Ho : is_byte (ly_opacity l)) by (eapply made_opacity; [exact Hs|]; eapply drawn_layer; eassumption).
  pose proof (mode_fn c _ g back front _ Hb Pf Ho Hg) as G. now rewrite Hm in G.
Qed.

Lemma view_length c s inflate cel view : cfg_ok c -> typed c s -> inflate_ok inflate -> made_fits c s -> fine c cel ->
  cel_view inflate s cel view -> zlen view = room cel.
Proof.
  intros Hc Hs Hi Hfit Hf Hv. pose proof (made_loaded c s Hc Hs inflate Hi Hfit cel Hf) as H.
  destruct (load_image _ _ _ _ _) as [v|e|q].
  - destruct H as [H1 H2]. rewrite (view_unique s inflate cel view v Hv H1). exact H2.
  - now apply H in Hv.
  - now apply H in Hv.
Qed.
Lemma view_front c s inflate cel view x y : cfg_ok c -> typed c s -> inflate_ok inflate -> made_fits c s -> fine c cel ->
  cel_view inflate s cel view -> covers cel x y = true ->
  exists front, pixel (fst (fc_size cel)) view (x - fst (fc_origin cel)) (y - snd (fc_origin cel)) = Some front /\ is_px front.
Proof.
  intros Hc Hs Hi Hfit Hf Hv Ec. pose proof (view_length c s inflate cel view Hc Hs Hi Hfit Hf Hv) as Hl.
  assert (Hp : exists front, pixel (fst (fc_size cel)) view (x - fst (fc_origin cel)) (y - snd (fc_origin cel)) = Some front).
  { eexists. apply (pixel_at_px (fst (fc_size cel)) (snd (fc_size cel)));
      [unfold covers in Ec; destruct (fc_origin cel), (fc_size cel); cbn in *; lia..|]. unfold room in Hl. lia. }
  destruct Hp as [front Hp]. exists front. split; [exact Hp|]. eapply view_pixel; eassumption.
Qed.

(** Where all cels have a picture and no mode is hsl, only unknown modes panic. *)
Lemma only_modes c inflate s sel k sf target q : cfg_ok c -> inflate_ok inflate -> typed c s -> made_fits c s ->
  nth_error (api_frames s) k = Some sf -> is_bytes target ->
  (forall cel l, In cel (sf_cels sf) -> drawn s sel cel = Some l -> (exists view, cel_view inflate s cel view) /\ ~ hsl (ly_blend_mode l)) ->
  render_frame c inflate s (Z.of_nat k) target sel = Panic q -> q = PExplicit.
Proof.
  intros Hc Hi Hty Hfit Hk Hb HV Hp.
  apply (made_panics c s Hc Hty Hfit inflate Hi sel k sf target Hk Hb) in Hp.
  destruct Hp as (Hsz & before & cel & after & l & Ecels & Hdr & HS & Hst).
  destruct (HV cel l) as [[view Hv] Hh]; [rewrite Ecels; apply in_or_app; right; now left|exact Hdr|].
  destruct Hst as [N|(Hd & im & E1 & E2 & E3 & E4)|_ _ N|view' _ N|view' x y back Hv' Hm Hx Hy Ep N].
  - destruct Hv as (im & _ & Ei & _). unfold no_image in N. congruence.
  - destruct Hv as (im' & own & Ei & _ & Hde & _). assert (im' = im) as -> by congruence.
    unfold decoded, stored in Hde. rewrite Hd, E3 in Hde. destruct Hde as [-> Hde]. contradiction.
  - now apply N in Hv.
  - reflexivity.
  - exfalso. destruct HS as [_ HS]. destruct (HS x y back Hx Hy Ep) as [mid Hmid].
    assert (Pb : is_px back) by (eapply pixel_px; eassumption).
    assert (Pm : is_px mid) by (eapply stacked_px; eassumption).
    destruct (covers cel x y) eqn:Ec.
    + assert (Hfine : fine c cel).
      { pose proof (frames_fine c s Hty Hfit k sf Hk) as HF. rewrite Forall_forall in HF. apply HF.
        rewrite Ecels. apply in_or_app. right. now left. }
      destruct (view_front c s inflate cel view' x y Hc Hty Hi Hfit Hfine Hv' Ec) as (front & Hf & Pf).
      assert (Ho : is_byte (ly_opacity l)) by (eapply made_opacity; [exact Hty|]; eapply drawn_layer; eassumption).
      destruct Hm as [Hm|Hm]; [|contradiction].
      destruct (no_panic (ly_blend_mode l) mid front (ly_opacity l) Hm Pm Pf Ho) as (r & _ & Hr).
      destruct (Hr c) as (f & Ef & Er). apply (N r). eapply stacked_join; [exact Hmid|].
      eapply (stacked_draw _ _ _ _ _ _ cel [] mid l view' front f r); try eassumption. constructor.
    + apply (N mid). eapply stacked_join; [exact Hmid|]. apply stacked_skip; [now right|constructor].
Qed.

(** Frames of which every pixel is simulated *)
Theorem simulated_frames c inflate s s' sel (E : px -> px -> Prop) k sf sf' target target' r :
  cfg_ok c -> inflate_ok inflate -> typed c s -> typed c s' -> made_fits c s -> made_fits c s' ->
  canvas_width s' = canvas_width s -> canvas_height s' = canvas_height s ->
  nth_error (api_frames s) k = Some sf -> nth_error (api_frames s') k = Some sf' ->
  (forall cel l, In cel (sf_cels sf') -> drawn s' sel cel = Some l -> (exists view, cel_view inflate s' cel view) /\ known_mode (ly_blend_mode l)) ->
  (forall x y back back' p, 0 <= x < canvas_width s -> 0 <= y < canvas_height s -> is_px back -> is_px back' -> E back back' ->
     stacked c inflate s sel x y (sf_cels sf) back p -> exists p', stacked c inflate s' sel x y (sf_cels sf') back' p' /\ E p p') ->
  is_bytes target -> is_bytes target' -> canvas_size s <= zlen target' ->
  (forall x y p q, 0 <= x < canvas_width s -> 0 <= y < canvas_height s ->
     pixel (canvas_width s) target x y = Some p -> pixel (canvas_width s) target' x y = Some q -> E p q) ->
  render_frame c inflate s (Z.of_nat k) target sel = Ok r ->
  exists r', render_frame c inflate s' (Z.of_nat k) target' sel = Ok r' /\
    forall x y p q, 0 <= x < canvas_width s -> 0 <= y < canvas_height s ->
      pixel (canvas_width s) r x y = Some p -> pixel (canvas_width s) r' x y = Some q -> E p q.
Proof.
  intros Hc Hinf Hty Hty' Hfit Hfit' Ew Eh Hk Hk' HV HS Hb Hb' Hl HE Hok.
  assert (Esz : canvas_size s' = canvas_size s) by (unfold canvas_size; now rewrite Ew, Eh).
  pose proof (made_exactly c s Hc Hty Hfit inflate Hinf sel k sf target r Hk Hb) as HX. apply HX in Hok. clear HX.
  destruct Hok as (Hsz & Hrl & _ & Hcels & Hpx).
  assert (Hst : forall x y back', 0 <= x < canvas_width s -> 0 <= y < canvas_height s -> pixel (canvas_width s) target' x y = Some back' ->
    exists p p', pixel (canvas_width s) r x y = Some p /\ stacked c inflate s' sel x y (sf_cels sf') back' p' /\ E p p').
  { intros x y back' Hx Hy E'. destruct (Hpx x y Hx Hy) as (back & p & E1 & E2 & H).
    destruct (HS x y back back' p Hx Hy) as (p' & H' & HE'); eauto using pixel_px. }
  destruct (made_other c s' Hc Hty' Hfit' inflate Hinf sel k target' Hb') as [HO _].
  destruct (render_frame c inflate s' (Z.of_nat k) target' sel) as [r'|[e t]|q] eqn:R.
  - exists r'. split; [reflexivity|].
    apply (made_exactly c s' Hc Hty' Hfit' inflate Hinf sel k sf' target' r' Hk' Hb') in R.
    destruct R as (_ & _ & _ & _ & Hpx'). rewrite Ew, Eh in Hpx'. intros x y p q Hx Hy Ep Eq.
    destruct (Hpx' x y Hx Hy) as (back' & q' & E1 & E2 & H'). assert (q' = q) as -> by congruence.
    destruct (Hst x y back' Hx Hy E1) as (p0 & p' & E3 & H & HE'). assert (p0 = p) as -> by congruence.
    rewrite (stacked_unique c s' inflate sel x y _ _ _ _ H' H). exact HE'.
  - destruct (proj1 (HO e t) eq_refl) as [H _]. lia.
  - exfalso. apply (made_panics c s' Hc Hty' Hfit' inflate Hinf sel k sf' target' Hk' Hb') in R.
    destruct R as (_ & before & cel & after & l & Ecels & Hdr & _ & Hstuck).
    destruct (HV cel l) as [[view Hv] Hm]; [rewrite Ecels; apply in_or_app; right; now left|exact Hdr|].
    destruct Hstuck as [N|(Hd & im & E1 & E2 & E3 & E4)|_ _ N|view' _ N|view' x y back' _ _ Hx Hy E' N].
    + destruct Hv as (im & _ & Ei & _). unfold no_image in N. congruence.
    + destruct Hv as (im' & own & Ei & _ & Hde & _). assert (im' = im) as -> by congruence.
      unfold decoded, stored in Hde. rewrite Hd, E3 in Hde. destruct Hde as [-> Hde]. contradiction.
    + now apply N in Hv.
    + contradiction.
    + rewrite Ew in Hx. rewrite Eh in Hy. rewrite Ew in E'. destruct (Hst x y back' Hx Hy E') as (p & p' & _ & H & _). rewrite Ecels in H.
      change (before ++ cel :: after) with (before ++ [cel] ++ after) in H. rewrite app_assoc in H.
      apply stacked_app in H. destruct H as (m & H & _). now apply N in H.
Qed.
