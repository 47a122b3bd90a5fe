(** Trimmed pictures (C118). *)
From Verif.Model Require Import Loader.
From Verif.Spec Require Import Bytes ImageSpec BlendSpec RenderSpec Refusals Made Convert Trimmed.
From Verif.Proofs Require Import BlendFacts BlendProps ImageFacts RenderFacts RenderProps CanvasProps MadeProps UnpackProps SimProps.

Lemma same_look_sym p q : same_look p q -> same_look q p.
Proof. intros [->|[A B]]; [now left|now right]. Qed.
Lemma same_look_trans p q r : same_look p q -> same_look q r -> same_look p r.
Proof. unfold same_look. intros [->|[A B]] [->|[C D]]; auto. Qed.

Lemma blend_look c m f back back' front o mid : same_look back back' -> blend_mode_to_blend_fn c m = Ok f ->
  f back front o = Ok mid -> f back' front o = Ok mid.
Proof.
  intros [<-|[A B]] Ef Em; [exact Em|]. rewrite (transparent_back m back' front o c f B Ef).
  rewrite (transparent_back m back front o c f A Ef) in Em. unfold normal in *. rewrite A in Em. rewrite B. exact Em.
Qed.
Lemma blank_look c m f back front o mid : is_px back -> is_px front -> is_byte o -> pa front = 0 ->
  blend_mode_to_blend_fn c m = Ok f -> f back front o = Ok mid -> same_look back mid.
Proof.
  intros Hb Hf Ho F Ef Em. destruct (Z.eq_dec (pa back) 0) as [B|B].
  - right. split; [exact B|]. rewrite (transparent_back m back front o c f B Ef) in Em.
    rewrite normal_eq in Em by assumption. injection Em as <-. unfold normal_px. rewrite B, F. reflexivity.
  - left. destruct (mode_cases m) as [[Hm|Hm]|[w ->]]; [| |discriminate].
    + destruct (transparent_front m back front o Hm Hb Hf Ho B F c) as (g & Eg & E). congruence.
    + destruct (hsl_outcomes m back front o Hm Hb Hf Ho) as (r & _ & HR & HD).
      assert (r = back).
      { destruct (hsl_transparent m back front o Hm Hb Hf Ho B F {| debug := false; usize_bits := usize_bits c |} eq_refl) as (g & Eg & E).
        destruct (HR {| debug := false; usize_bits := usize_bits c |} eq_refl) as (g' & Eg' & E'). congruence. }
      subst r. destruct (debug c) eqn:D.
      * destruct (HD c D) as (g & Eg & [E|E]); congruence.
      * destruct (HR c D) as (g & Eg & E). congruence.
Qed.
Lemma calm_ok c m f back front o : debug c = false \/ separable m -> is_px back -> is_px front -> is_byte o ->
  blend_mode_to_blend_fn c m = Ok f -> exists mid, f back front o = Ok mid.
Proof.
  intros HC Hb Hf Ho Ef. pose proof (mode_fn c m f back front o Hb Hf Ho Ef) as H.
  destruct (f back front o) as [mid|e|q]; [eauto|contradiction|]. destruct H as (_ & D & Hh).
  destruct HC as [HC|HC]; [congruence|]. destruct m; cbn in *; contradiction.
Qed.

Section Trim.
Context (c : cfg) (inflate : inflater) (s s' : ase_file) (sel : layer_selection).
Hypothesis Hc : cfg_ok c.
Hypothesis Hinf : inflate_ok inflate.
Hypothesis Hty : typed c s.
Hypothesis Hty' : typed c s'.
Hypothesis Hfit : made_fits c s.
Hypothesis Hfit' : made_fits c s'.
Hypothesis HT : trimmed inflate s s'.

Lemma trim_drawn cel cel' : trimmed_cel inflate s s' cel cel' -> drawn s' sel cel' = drawn s sel cel.
Proof. intros (E & _). destruct HT as (_ & El & _). unfold drawn. now rewrite E, El. Qed.
Lemma shows_unique u cel x y p q : shows inflate u cel x y p -> shows inflate u cel x y q -> p = q.
Proof. intros (_ & v & V & E) (_ & v' & V' & E'). rewrite (view_unique u inflate cel v' v V' V) in E'. congruence. Qed.
Lemma shows_px u cel x y p : typed c u -> shows inflate u cel x y p -> is_px p.
Proof. intros Hu (_ & v & V & E). eapply view_pixel; [exact Hc|exact Hu|exact Hinf|exact V|exact E]. Qed.
Lemma has_shows u cel x y : typed c u -> made_fits c u -> fine c cel -> has_view inflate u cel -> covers cel x y = true ->
  exists p, shows inflate u cel x y p.
Proof.
  intros Hu Hf Hfi [v V] Ec. destruct (view_front c u inflate cel v x y Hc Hu Hinf Hf Hfi V Ec) as (p & E & _).
  exists p. split; [exact Ec|]. eauto.
Qed.
Lemma draw_shown u cel x y l front f back mid : drawn u sel cel = Some l -> shows inflate u cel x y front ->
  blend_mode_to_blend_fn c (ly_blend_mode l) = Ok f -> f back front (ly_opacity l) = Ok mid ->
  forall cels p, stacked c inflate u sel x y cels mid p -> stacked c inflate u sel x y (cel :: cels) back p.
Proof. intros Hd (Ec & v & V & E) Ef Em cels p H. eapply (stacked_draw _ _ _ _ _ _ cel cels back l v front f mid); eassumption. Qed.

Lemma trim_stack x y cels cels' : on_canvas s x y -> trimmed_cels inflate s s' cels cels' ->
  Forall (fine c) cels -> Forall (fine c) cels' ->
  forall back back' p, is_px back -> same_look back back' -> stacked c inflate s sel x y cels back p ->
  exists p', stacked c inflate s' sel x y cels' back' p' /\ same_look p p'.
Proof.
  intros Hxy HTC. induction HTC as [|cel cel' cels cels' HR HF IH|cel cels cels' HB HF IH];
    intros Hfi Hfi' back back' p Pb HL H.
  - inversion H; subst. exists back'. split; [constructor|exact HL].
  - inversion Hfi as [|? ? Fc Fcs]; subst. inversion Hfi' as [|? ? Fc' Fcs']; subst. specialize (IH Fcs Fcs').
    pose proof (trim_drawn cel cel' HR) as ED. pose proof HR as (_ & Vs & Vs' & HP). destruct (HP x y Hxy) as [HP1 HP2].
    inversion H as [|? ? ? ? Hskip H0|? ? ? l view front g mid ? Hdr Hcov Hv Hpx Hg Hm H0]; subst.
    + destruct (IH back back' p Pb HL H0) as (p' & H' & HL'). exists p'. split; [|exact HL'].
      apply stacked_skip; [|exact H']. rewrite ED. destruct Hskip as [E|E]; [now left|right].
      destruct (covers cel' x y) eqn:Ec'; [|reflexivity].
      destruct (has_shows s' cel' x y Hty' Hfit' Fc' Vs' Ec') as [q Sq]. apply HP1 in Sq. destruct Sq. congruence.
    + assert (Sf : shows inflate s cel x y front) by (split; [exact Hcov|]; eauto).
      pose proof (shows_px s cel x y front Hty Sf) as Pf.
      assert (Ho : is_byte (ly_opacity l)) by (eapply made_opacity; [exact Hty|]; eapply drawn_layer; eassumption).
      assert (Pm : is_px mid) by (pose proof (mode_fn c _ g back front _ Pb Pf Ho Hg) as G; now rewrite Hm in G).
      destruct (covers cel' x y) eqn:Ec'.
      * destruct (has_shows s' cel' x y Hty' Hfit' Fc' Vs' Ec') as [q Sq].
        assert (q = front) as -> by (apply (shows_unique s cel x y); [now apply HP1|exact Sf]).
        destruct (IH mid mid p Pm (or_introl eq_refl) H0) as (p' & H' & HL'). exists p'. split; [|exact HL'].
        eapply (draw_shown s' cel' x y l front g back' mid); [now rewrite ED|exact Sq|exact Hg| |exact H'].
        eapply blend_look; eassumption.
      * assert (F0 : pa front = 0) by (destruct (HP2 front Sf) as [[E _]|E]; [congruence|exact E]).
        assert (HL2 : same_look mid back').
        { eapply same_look_trans; [|exact HL]. apply same_look_sym. apply (blank_look c (ly_blend_mode l) g back front (ly_opacity l) mid); assumption. }
        destruct (IH mid back' p Pm HL2 H0) as (p' & H' & HL'). exists p'. split; [|exact HL'].
        apply stacked_skip; [now right|exact H'].
  - inversion Hfi as [|? ? Fc Fcs]; subst. specialize (IH Fcs Hfi'). destruct HB as [Vs HB].
    inversion H as [|? ? ? ? Hskip H0|? ? ? l view front g mid ? Hdr Hcov Hv Hpx Hg Hm H0]; subst.
    + eapply IH; eassumption.
    + assert (Sf : shows inflate s cel x y front) by (split; [exact Hcov|]; eauto).
      pose proof (shows_px s cel x y front Hty Sf) as Pf.
      assert (Ho : is_byte (ly_opacity l)) by (eapply made_opacity; [exact Hty|]; eapply drawn_layer; eassumption).
      assert (Pm : is_px mid) by (pose proof (mode_fn c _ g back front _ Pb Pf Ho Hg) as G; now rewrite Hm in G).
      apply (IH mid back' p Pm); [|exact H0]. eapply same_look_trans; [|exact HL]. apply same_look_sym.
      apply (blank_look c (ly_blend_mode l) g back front (ly_opacity l) mid); try assumption. eapply HB; eassumption.
Qed.

Lemma untrim_stack x y cels cels' : on_canvas s x y -> trimmed_cels inflate s s' cels cels' ->
  Forall (fine c) cels -> Forall (fine c) cels' ->
  (forall cel l, In cel cels -> drawn s sel cel = Some l -> known_mode (ly_blend_mode l) /\ (debug c = false \/ separable (ly_blend_mode l))) ->
  forall back back' p', is_px back -> same_look back back' -> stacked c inflate s' sel x y cels' back' p' ->
  exists p, stacked c inflate s sel x y cels back p /\ same_look p p'.
Proof.
  intros Hxy HTC. induction HTC as [|cel cel' cels cels' HR HF IH|cel cels cels' HB HF IH];
    intros Hfi Hfi' HM back back' p' Pb HL H.
  - inversion H; subst. exists back. split; [constructor|exact HL].
  - inversion Hfi as [|? ? Fc Fcs]; subst. inversion Hfi' as [|? ? Fc' Fcs']; subst.
    specialize (IH Fcs Fcs' (fun cel l Hin => HM cel l (or_intror Hin))).
    pose proof (trim_drawn cel cel' HR) as ED. pose proof HR as (_ & Vs & Vs' & HP). destruct (HP x y Hxy) as [HP1 HP2].
    inversion H as [|? ? ? ? Hskip H0|? ? ? l view front g mid ? Hdr Hcov Hv Hpx Hg Hm H0]; subst.
    + rewrite ED in Hskip. destruct (drawn s sel cel) as [l|] eqn:Hdr.
      2:{ destruct (IH back back' p' Pb HL H0) as (p & H1 & HL'). exists p. split; [|exact HL']. apply stacked_skip; auto. }
      destruct Hskip as [Hskip|Ec']; [discriminate|]. destruct (covers cel x y) eqn:Ec.
      2:{ destruct (IH back back' p' Pb HL H0) as (p & H1 & HL'). exists p. split; [|exact HL']. apply stacked_skip; auto. }
      destruct (has_shows s cel x y Hty Hfit Fc Vs Ec) as [front Sf].
      assert (F0 : pa front = 0) by (destruct (HP2 front Sf) as [[E _]|E]; [congruence|exact E]).
      pose proof (shows_px s cel x y front Hty Sf) as Pf.
      assert (Ho : is_byte (ly_opacity l)) by (eapply made_opacity; [exact Hty|]; eapply drawn_layer; eassumption).
      destruct (HM cel l (or_introl eq_refl) Hdr) as [K C]. destruct (known_fn c _ K) as [g Hg].
      destruct (calm_ok c _ g back front _ C Pb Pf Ho Hg) as [mid Hm].
      assert (Pm : is_px mid) by (pose proof (mode_fn c _ g back front _ Pb Pf Ho Hg) as G; now rewrite Hm in G).
      assert (HL2 : same_look mid back').
      { eapply same_look_trans; [|exact HL]. apply same_look_sym. apply (blank_look c (ly_blend_mode l) g back front (ly_opacity l) mid); assumption. }
      destruct (IH mid back' p' Pm HL2 H0) as (p & H1 & HL'). exists p. split; [|exact HL']. eapply draw_shown; eassumption.
    + assert (Sf' : shows inflate s' cel' x y front) by (split; [exact Hcov|]; eauto).
      pose proof (HP1 front Sf') as Sf. rewrite ED in Hdr.
      pose proof (shows_px s cel x y front Hty Sf) as Pf.
      assert (Ho : is_byte (ly_opacity l)) by (eapply made_opacity; [exact Hty|]; eapply drawn_layer; eassumption).
      pose proof (blend_look c _ g back' back front _ mid (same_look_sym _ _ HL) Hg Hm) as Hm'.
      assert (Pm : is_px mid) by (pose proof (mode_fn c _ g back front _ Pb Pf Ho Hg) as G; now rewrite Hm' in G).
      destruct (IH mid mid p' Pm (or_introl eq_refl) H0) as (p & H1 & HL'). exists p. split; [|exact HL'].
      eapply draw_shown; eassumption.
  - inversion Hfi as [|? ? Fc Fcs]; subst. specialize (IH Fcs Hfi' (fun cel l Hin => HM cel l (or_intror Hin))). destruct HB as [Vs HB].
    destruct (drawn s sel cel) as [l|] eqn:Hdr.
    2:{ destruct (IH back back' p' Pb HL H) as (p & H1 & HL'). exists p. split; [|exact HL']. apply stacked_skip; auto. }
    destruct (covers cel x y) eqn:Ec.
    2:{ destruct (IH back back' p' Pb HL H) as (p & H1 & HL'). exists p. split; [|exact HL']. apply stacked_skip; auto. }
    destruct (has_shows s cel x y Hty Hfit Fc Vs Ec) as [front Sf]. pose proof (HB x y front Hxy Sf) as F0.
    pose proof (shows_px s cel x y front Hty Sf) as Pf.
    assert (Ho : is_byte (ly_opacity l)) by (eapply made_opacity; [exact Hty|]; eapply drawn_layer; eassumption).
    destruct (HM cel l (or_introl eq_refl) Hdr) as [K C]. destruct (known_fn c _ K) as [g Hg].
    destruct (calm_ok c _ g back front _ C Pb Pf Ho Hg) as [mid Hm].
    assert (Pm : is_px mid) by (pose proof (mode_fn c _ g back front _ Pb Pf Ho Hg) as G; now rewrite Hm in G).
    assert (HL2 : same_look mid back').
    { eapply same_look_trans; [|exact HL]. apply same_look_sym. apply (blank_look c (ly_blend_mode l) g back front (ly_opacity l) mid); assumption. }
    destruct (IH mid back' p' Pm HL2 H) as (p & H1 & HL'). exists p. split; [|exact HL']. eapply draw_shown; eassumption.
Qed.

Lemma trimmed_in cels cels' : trimmed_cels inflate s s' cels cels' -> forall cel', In cel' cels' ->
  exists cel, In cel cels /\ trimmed_cel inflate s s' cel cel'.
Proof.
  induction 1 as [|cel cel' cels cels' HR HF IH|cel cels cels' HB HF IH]; intros c0 Hin.
  - destruct Hin.
  - destruct Hin as [<-|Hin]; [exists cel; split; [now left|exact HR]|]. destruct (IH c0 Hin) as (d & H1 & H2). exists d. split; [now right|exact H2].
  - destruct (IH c0 Hin) as (d & H1 & H2). exists d. split; [now right|exact H2].
Qed.
Lemma trimmed_view cels cels' : trimmed_cels inflate s s' cels cels' -> forall cel, In cel cels -> has_view inflate s cel.
Proof.
  induction 1 as [|cel cel' cels cels' HR HF IH|cel cels cels' HB HF IH]; intros c0 Hin.
  - destruct Hin.
  - destruct Hin as [<-|Hin]; [apply HR|now apply IH].
  - destruct Hin as [<-|Hin]; [apply HB|now apply IH].
Qed.

Lemma trim_canvas : canvas_width s' = canvas_width s /\ canvas_height s' = canvas_height s.
Proof. destruct HT as (E & _). now injection E. Qed.
Lemma trim_frame k sf : nth_error (api_frames s) k = Some sf ->
  exists sf', nth_error (api_frames s') k = Some sf' /\ trimmed_cels inflate s s' (sf_cels sf) (sf_cels sf').
Proof.
  intro Hk. destruct HT as (_ & _ & HF). pose proof (Forall2_nth _ _ _ HF k) as H. unfold api_frames in *. rewrite Hk in H.
  destruct (nth_error (af_frames s') k) as [sf'|]; [eauto|contradiction].
Qed.
Lemma no_frame u k target r : typed c u -> made_fits c u -> is_bytes target -> nth_error (api_frames u) k = None ->
  render_frame c inflate u (Z.of_nat k) target sel <> Ok r.
Proof.
  intros Hu Hf Hb Hk R. destruct (made_other c u Hc Hu Hf inflate Hinf sel k target Hb) as [HE HN].
  destruct (Z.ltb_spec (zlen target) (canvas_size u)).
  - rewrite (proj2 (HE TargetBufferTooSmall target)) in R by auto. discriminate.
  - rewrite HN in R by assumption. discriminate.
Qed.

Theorem trimmed_frames k target target' r : is_bytes target -> is_bytes target' -> canvas_size s <= zlen target' ->
  same_looks (canvas s) target target' ->
  render_frame c inflate s (Z.of_nat k) target sel = Ok r ->
  exists r', render_frame c inflate s' (Z.of_nat k) target' sel = Ok r' /\ same_looks (canvas s) r r'.
Proof.
  intros Hb Hb' Hl HL R. destruct trim_canvas as [Ew Eh].
  destruct (nth_error (api_frames s) k) as [sf|] eqn:Hk; [|exfalso; now apply (no_frame s k target r) in R].
  destruct (trim_frame k sf Hk) as (sf' & Hk' & HC).
  pose proof (frames_fine c s Hty Hfit k sf Hk) as Hfi. pose proof (frames_fine c s' Hty' Hfit' k sf' Hk') as Hfi'.
  pose proof (proj1 (made_exactly c s Hc Hty Hfit inflate Hinf sel k sf target r Hk Hb) R) as (_ & _ & _ & Hcels & _).
  refine (simulated_frames c inflate s s' sel same_look k sf sf' target target' r Hc Hinf Hty Hty' Hfit Hfit' Ew Eh Hk Hk' _ _ Hb Hb' Hl HL R).
  - intros cel' l Hin Hdr. destruct (trimmed_in _ _ HC cel' Hin) as (cel & Hin0 & HR). split; [apply HR|].
    rewrite (trim_drawn cel cel' HR) in Hdr. now apply (Hcels cel l).
  - intros x y back back' p Hx Hy Pb _ HE H. apply (trim_stack x y _ _ (conj Hx Hy) HC Hfi Hfi' back); assumption.
Qed.

Theorem untrimmed_frames k target target' r' : is_bytes target -> is_bytes target' -> canvas_size s <= zlen target ->
  same_looks (canvas s) target target' ->
  (forall sf cel l, nth_error (api_frames s) k = Some sf -> In cel (sf_cels sf) -> drawn s sel cel = Some l ->
     known_mode (ly_blend_mode l) /\ (debug c = false \/ separable (ly_blend_mode l))) ->
  render_frame c inflate s' (Z.of_nat k) target' sel = Ok r' ->
  exists r, render_frame c inflate s (Z.of_nat k) target sel = Ok r /\ same_looks (canvas s) r r'.
Proof.
  intros Hb Hb' Hl HL HM R. destruct trim_canvas as [Ew Eh].
  destruct (nth_error (api_frames s) k) as [sf|] eqn:Hk.
  2:{ exfalso. refine (no_frame s' k target' r' Hty' Hfit' Hb' _ R). destruct HT as (_ & _ & HF).
      pose proof (Forall2_nth _ _ _ HF k) as H. unfold api_frames in *. rewrite Hk in H. now destruct (nth_error (af_frames s') k). }
  destruct (trim_frame k sf Hk) as (sf' & Hk' & HC).
  pose proof (frames_fine c s Hty Hfit k sf Hk) as Hfi. pose proof (frames_fine c s' Hty' Hfit' k sf' Hk') as Hfi'.
  assert (Esz : canvas_size s' = canvas_size s) by (unfold canvas_size; now rewrite Ew, Eh).
  destruct (simulated_frames c inflate s' s sel (fun p q => same_look q p) k sf' sf target' target r' Hc Hinf Hty' Hty Hfit' Hfit
    (eq_sym Ew) (eq_sym Eh) Hk' Hk) as (r & Hr & HR); try assumption.
  - intros cel l Hin Hdr. split; [eapply trimmed_view; eassumption|]. now apply (HM sf cel l).
  - intros x y back back' p Hx Hy Pb Pb' HE H. rewrite Ew in Hx. rewrite Eh in Hy.
    destruct (untrim_stack x y _ _ (conj Hx Hy) HC Hfi Hfi' (fun cel l => HM sf cel l eq_refl) back' back p) as (p0 & H0 & HL0); eauto.
  - lia.
  - intros x y p q Hx Hy Ep Eq. rewrite Ew in *. rewrite Eh in *. eapply HL; eassumption.
  - exists r. split; [exact Hr|]. intros x y p q Hx Hy Ep Eq. cbn [canvas fst snd] in *. rewrite <- Ew in *. rewrite <- Eh in *. eapply HR; eassumption.
Qed.
End Trim.
