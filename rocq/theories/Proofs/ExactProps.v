(** Exactly when and what [render_frame] draws; copies and exchanged pictures
    can be drawn too. *)
From Verif.Model Require Import Loader.
From Verif.Spec Require Import Bytes ImageSpec BlendSpec RenderSpec Laws.
From Verif.Proofs Require Import ParseLib BlendFacts BlendProps ImageFacts ImageProps RenderFacts RenderProps CanvasProps LawProps RecolourProps.

Section Exact.
Context (c : cfg) (i : bytes) (s : ase_file).
Context (Hc : cfg_ok c) (Hi : is_bytes i) (Ha : addressable c i) (Hload : load c i = Ok s).
Context (inflate : inflater) (Hinf : inflate_ok inflate) (Hfit : sprite_fits c s) (sel : layer_selection).

(** A failed assertion belongs to a pixel that cannot be composed. *)
Lemma cel_assert cel t : cel_ok s cel -> is_bytes t -> canvas_size s <= zlen t ->
  render_cel c inflate s sel t cel = Panic PDebugAssert ->
  exists x y back, 0 <= x < canvas_width s /\ 0 <= y < canvas_height s /\ pixel (canvas_width s) t x y = Some back /\
    forall cels p, ~ composed c inflate s sel x y (cel :: cels) back p.
Proof.
  intros Hok Hb Ht. rewrite (render_cel_eq c i s Hc Hi Ha Hload inflate Hfit sel) by exact Hok.
  destruct (canvas_facts c i s Hc Hi Ha Hload) as [HW HH].
  destruct (drawn s sel cel) as [l|] eqn:Ed; [|discriminate].
  pose proof (cel_loaded c i s Hc Hi Ha Hload inflate Hinf Hfit cel Hok) as HL. cbv zeta in HL.
  destruct (load_image c inflate s _ _) as [image|e|q]; cbn [unwrap bind]; [|discriminate|destruct HL as (-> & _); discriminate].
  destruct HL as [Himg Hlen].
  destruct (mode_cases (ly_blend_mode l)) as [Hm|[w Hm]].
  2:{ rewrite Hm, unknown_mode. cbn [lift bind]. discriminate. }
  destruct (known_fn c _ Hm) as [f Ef]. rewrite Ef. cbn [lift bind]. intro E.
  destruct (cel_sizes c i s Hc Hi Ha Hload Hfit cel Hok) as (H1 & H2 & H3). pose proof Hfit as [HC _]. unfold canvas_size in *.
  pose proof (render_pixels_outcome c (canvas_width s) (canvas_height s) cel image f (ly_opacity l) HW HH HC H1 H2 H3 Hlen t Ht) as HR.
  rewrite E in HR. destruct HR as (x & y & back & front & Hx & Hy & Hcv & E1 & E2 & E3). exists x, y, back.
  split; [exact Hx|]. split; [exact Hy|]. split; [exact E1|]. intros cels p H.
  inversion H as [|? ? ? ? D|? ? ? l' image' front' f' mid ? D1 D2 D3 D4 D5 D6 D7]; subst; [destruct D; congruence|].
  assert (l' = l) as -> by congruence. assert (image' = image) as -> by (eapply cel_image_unique; eassumption).
  assert (front' = front) as -> by congruence. assert (f' = f) as -> by congruence. congruence.
Qed.

Lemma composed_tail x y cel cels back mid r :
  composed c inflate s sel x y [cel] back mid -> composed c inflate s sel x y (cel :: cels) back r -> composed c inflate s sel x y cels mid r.
Proof.
  intros H1 H. assert (exists mid', composed c inflate s sel x y [cel] back mid' /\ composed c inflate s sel x y cels mid' r) as (mid' & G1 & G2).
  { inversion H; subst.
    - eexists. split; [apply composed_skip; [eassumption|constructor]|assumption].
    - eexists. split; [eapply composed_draw; try eassumption; constructor|assumption]. }
  assert (mid' = mid) as -> by (eapply composed_unique; eassumption). exact G2.
Qed.

Lemma cels_assert cels : Forall (cel_ok s) cels -> forall t, is_bytes t -> canvas_size s <= zlen t ->
  fold_out (render_cel c inflate s sel) cels t = Panic PDebugAssert ->
  exists x y back, 0 <= x < canvas_width s /\ 0 <= y < canvas_height s /\ pixel (canvas_width s) t x y = Some back /\
    forall p, ~ composed c inflate s sel x y cels back p.
Proof.
  induction 1 as [|cel cels Hok HF IH]; intros t Hb Ht; cbn [fold_out]; [discriminate|].
  pose proof (render_cel_outcome c i s Hc Hi Ha Hload inflate Hinf Hfit sel cel t Hok Hb Ht) as HC.
  destruct (render_cel c inflate s sel t cel) as [t1|e|q] eqn:E; cbn [bind]; intro H; [|discriminate|].
  - destruct HC as (L & B & _ & _ & _ & V). destruct (IH t1 B ltac:(lia) H) as (x & y & mid & Hx & Hy & P & N).
    destruct (V x y Hx Hy) as (back & p & E1 & E2 & E3). assert (p = mid) as -> by congruence.
    exists x, y, back. split; [exact Hx|]. split; [exact Hy|]. split; [exact E1|]. intros r G. apply (N r).
    eapply composed_tail; [|exact G]. apply E3. constructor.
  - injection H as ->. destruct (cel_assert cel t Hok Hb Ht E) as (x & y & back & Hx & Hy & P & N).
    exists x, y, back. repeat split; try assumption; try lia. apply N.
Qed.
End Exact.

Lemma render_exactly c i s : cfg_ok c -> is_bytes i -> addressable c i -> load c i = Ok s ->
  forall inflate, inflate_ok inflate -> sprite_fits c s ->
  forall sel k sf target r, nth_error (api_frames s) k = Some sf -> is_bytes target ->
  (render_frame c inflate s (Z.of_nat k) target sel = Ok r <->
   canvas_size s <= zlen target /\ zlen r = zlen target /\
   skipn (Z.to_nat (canvas_size s)) r = skipn (Z.to_nat (canvas_size s)) target /\
   (forall cel l, In cel (sf_cels sf) -> drawn s sel cel = Some l ->
      (exists image, cel_image inflate s cel image) /\ known_mode (ly_blend_mode l)) /\
   forall x y, 0 <= x < canvas_width s -> 0 <= y < canvas_height s ->
     exists back p, pixel (canvas_width s) target x y = Some back /\ pixel (canvas_width s) r x y = Some p /\
       composed c inflate s sel x y (sf_cels sf) back p).
Proof.
  intros Hc Hi Ha Hl inflate Hinf Hfit sel k sf t r Hk Hb. split.
  - intro Hr. assert (Hle : canvas_size s <= zlen t).
    { destruct (Z.ltb_spec (zlen t) (canvas_size s)) as [H|H]; [|exact H].
      rewrite (render_too_small c i s Hc Hi Ha Hl Hfit inflate sel (Z.of_nat k) t H) in Hr. discriminate. }
    split; [exact Hle|].
    pose proof (render_buffer c i s Hc Hi Ha Hl inflate Hinf Hfit sel k sf t Hk Hb Hle) as B. rewrite Hr in B. destruct B as (B1 & _ & B2).
    split; [exact B1|]. split; [exact B2|]. split.
    + apply (render_succeeds c i s Hc Hi Ha Hl inflate Hinf Hfit sel k sf t Hk Hb Hle). eauto.
    + exact (render_composes c i s Hc Hi Ha Hl inflate Hinf Hfit sel k sf t r Hk Hb Hr).
  - intros (Hle & L & S & D & V).
    pose proof (render_composes c i s Hc Hi Ha Hl inflate Hinf Hfit sel k sf t) as RC.
    pose proof (render_buffer c i s Hc Hi Ha Hl inflate Hinf Hfit sel k sf t Hk Hb Hle) as B.
    pose proof (render_panics c i s Hc Hi Ha Hl inflate Hinf Hfit sel k sf t) as RP.
    destruct (render_frame c inflate s (Z.of_nat k) t sel) as [r'|e|q] eqn:E; [|contradiction|].
    + f_equal. destruct B as (L' & _ & S'). destruct (canvas_facts c i s Hc Hi Ha Hl) as [[W0 _] [H0 _]].
      apply (same_pixels (canvas_width s) (canvas_height s) t); try assumption.
      intros x y Hx Hy. destruct (V x y Hx Hy) as (back & p & P1 & P2 & C).
      destruct (RC r' Hk Hb eq_refl x y Hx Hy) as (back' & p' & P1' & P2' & C').
      assert (back' = back) as -> by congruence. assert (p' = p) as -> by (eapply composed_unique; eassumption). congruence.
    + exfalso. destruct (RP q Hk Hb eq_refl) as (cel & l & Hin & Hdr & G). destruct (D cel l Hin Hdr) as ([image Him] & Hm).
      destruct G as [(_ & Hd1 & im & Hj & Hz & Hn)|[[_ G]|[[_ G]|(-> & _)]]].
      * eapply no_image_raw; eassumption.
      * exact (G _ Him).
      * exact (G Hm).
      * rewrite (render_frame_eq c i s Hc Hi Ha Hl inflate Hfit sel k sf t Hk) in E. replace (_ <? _) with false in E by lia.
        destruct (cels_assert c i s Hc Hi Ha Hl inflate Hinf Hfit sel _ (frame_cels_ok c i s Hc Hi Ha Hl k sf Hk) t Hb Hle E)
          as (x & y & back & Hx & Hy & P & N).
        destruct (V x y Hx Hy) as (back' & p & P1 & _ & C). assert (back' = back) as -> by congruence. exact (N p C).
Qed.

(** Drawing succeeds when all pixels can be composed. *)
Lemma render_possible c i s : cfg_ok c -> is_bytes i -> addressable c i -> load c i = Ok s ->
  forall inflate, inflate_ok inflate -> sprite_fits c s ->
  forall sel k sf target, nth_error (api_frames s) k = Some sf -> is_bytes target -> canvas_size s <= zlen target ->
  ((exists r, render_frame c inflate s (Z.of_nat k) target sel = Ok r) <->
   (forall cel l, In cel (sf_cels sf) -> drawn s sel cel = Some l ->
      (exists image, cel_image inflate s cel image) /\ known_mode (ly_blend_mode l)) /\
   forall x y back, 0 <= x < canvas_width s -> 0 <= y < canvas_height s -> pixel (canvas_width s) target x y = Some back ->
     exists p, composed c inflate s sel x y (sf_cels sf) back p).
Proof.
  intros Hc Hi Ha Hl inflate Hinf Hfit sel k sf t Hk Hb Hle. split.
  - intros [r Hr]. apply (render_exactly c i s Hc Hi Ha Hl inflate Hinf Hfit sel k sf t r Hk Hb) in Hr.
    destruct Hr as (_ & _ & _ & D & V). split; [exact D|]. intros x y back Hx Hy P.
    destruct (V x y Hx Hy) as (b & p & P1 & _ & C). assert (b = back) as -> by congruence. eauto.
  - intros (D & V).
    pose proof (render_buffer c i s Hc Hi Ha Hl inflate Hinf Hfit sel k sf t Hk Hb Hle) as B.
    pose proof (render_panics c i s Hc Hi Ha Hl inflate Hinf Hfit sel k sf t) as RP.
    destruct (render_frame c inflate s (Z.of_nat k) t sel) as [r'|e|q] eqn:E; [eauto|contradiction|].
    exfalso. destruct (RP q Hk Hb eq_refl) as (cel & l & Hin & Hdr & G). destruct (D cel l Hin Hdr) as ([image Him] & Hm).
    destruct G as [(_ & Hd1 & im & Hj & Hz & Hn)|[[_ G]|[[_ G]|(-> & _)]]].
    + eapply no_image_raw; eassumption.
    + exact (G _ Him).
    + exact (G Hm).
    + rewrite (render_frame_eq c i s Hc Hi Ha Hl inflate Hfit sel k sf t Hk) in E. replace (_ <? _) with false in E by lia.
      destruct (cels_assert c i s Hc Hi Ha Hl inflate Hinf Hfit sel _ (frame_cels_ok c i s Hc Hi Ha Hl k sf Hk) t Hb Hle E)
        as (x & y & back & Hx & Hy & P & N).
      destruct (V x y back Hx Hy P) as (p & C). exact (N p C).
Qed.

(** ** Exchange *)
Lemma laid_composed c inflate s sel x y cels : forall back p, laid c inflate (af_file s) x y (shown s sel cels) back p ->
  composed c inflate s sel x y cels back p.
Proof.
  induction cels as [|cel cels IH]; intros back p H; cbn [shown flat_map] in H; [inversion H; subst; constructor|].
  destruct (drawn s sel cel) as [l|] eqn:E; cbn [app] in H; [|apply composed_skip; [now left|now apply IH]].
  inversion H as [|? ? ? ? ? ? ? ? S1 L1|? ? im ? ? ? ? image front g mid ? S1 I1 P1 F1 M1 L1]; subst.
  - apply composed_skip; [right; now rewrite covers_spans|now apply IH].
  - apply (composed_draw c inflate s sel x y cel cels back l image front g mid p); try assumption; [now rewrite covers_spans| |now apply IH].
    exists im. split; [symmetry; assumption|exact I1].
Qed.

(** A picture that can be drawn *)
Definition ready (inflate : inflater) (f : file) (a : picture_at) : Prop :=
  let '(_, _, i, m, _) := a in
  (exists im image, i = Some im /\ decoded inflate f im (repeat 0 (Z.to_nat (rgba_size im))) image) /\ known_mode m.
Lemma ready_shown inflate s sel cels :
  (forall cel l, In cel cels -> drawn s sel cel = Some l ->
     (exists image, cel_image inflate s cel image) /\ known_mode (ly_blend_mode l)) <->
  Forall (ready inflate (af_file s)) (shown s sel cels).
Proof.
  rewrite Forall_forall. split.
  - intros H a Hin. unfold shown in Hin. apply in_flat_map in Hin as (cel & Hcel & Hin). destruct (drawn s sel cel) as [l|] eqn:E; [|destruct Hin].
    destruct Hin as [<-|[]]. destruct (H cel l Hcel E) as [(image & im & E1 & E2) M]. split; [|exact M]. exists im, image. auto.
  - intros H cel l Hcel E. specialize (H (fc_origin cel, fc_size cel, nth_error (af_images s) (Z.to_nat (fc_image_index cel)), ly_blend_mode l, ly_opacity l)).
    destruct H as [(im & image & E1 & E2) M].
    { unfold shown. apply in_flat_map. exists cel. split; [exact Hcel|]. rewrite E. now left. }
    split; [|exact M]. exists image, im. auto.
Qed.
Lemma exchanged_in l l' : exchanged l l' -> forall a, In a l' <-> In a l.
Proof.
  induction 1 as [|u x y v H IH _]; [reflexivity|]. intro a. rewrite <- IH, !in_app_iff. cbn [In]. tauto.
Qed.

Lemma apart_sym a b : apart a b -> apart b a.
Proof. destruct a as [[[[ao az] ai] am] aop], b as [[[[bo bz] bi] bm] bop]. cbn [apart]. lia. Qed.
Lemma exchanged_trans l l' l'' : exchanged l l' -> exchanged l' l'' -> exchanged l l''.
Proof. intros H K. induction K; [exact H|]. now apply exchanged_one. Qed.
Lemma exchanged_sym l l' : exchanged l l' -> exchanged l' l.
Proof.
  induction 1 as [|u x y v H IH A]; [constructor|]. eapply exchanged_trans; [|exact IH].
  apply exchanged_one; [constructor|now apply apart_sym].
Qed.

Lemma exchanged_draws c i s i' s' : cfg_ok c -> is_bytes i -> addressable c i -> load c i = Ok s ->
  is_bytes i' -> addressable c i' -> load c i' = Ok s' ->
  same_canvas s s' -> f_palette (af_file s) = f_palette (af_file s') ->
  forall inflate, inflate_ok inflate -> sprite_fits c s -> sprite_fits c s' ->
  forall sel sel' k sf k' sf', nth_error (api_frames s) k = Some sf -> nth_error (api_frames s') k' = Some sf' ->
  exchanged (shown s sel (sf_cels sf)) (shown s' sel' (sf_cels sf')) ->
  forall target r, is_bytes target ->
  render_frame c inflate s (Z.of_nat k) target sel = Ok r ->
  render_frame c inflate s' (Z.of_nat k') target sel' = Ok r.
Proof.
  intros Hc Hi Ha Hl Hi' Ha' Hl' (Cw & Ch & Cd) Hp inflate Hinf Hfit Hfit' sel sel' k sf k' sf' Hk Hk' HX t r Ht Hr.
  apply (render_exactly c i s Hc Hi Ha Hl inflate Hinf Hfit sel k sf t r Hk Ht) in Hr. destruct Hr as (Hle & L & S & D & V).
  apply (render_exactly c i' s' Hc Hi' Ha' Hl' inflate Hinf Hfit' sel' k' sf' t r Hk' Ht).
  assert (ES : canvas_size s' = canvas_size s) by (unfold canvas_size; now rewrite Cw, Ch). rewrite ES, <- Cw, <- Ch.
  split; [exact Hle|]. split; [exact L|]. split; [exact S|]. split.
  - apply ready_shown. apply ready_shown in D. rewrite Forall_forall in *. intros a Hin. apply (exchanged_in _ _ HX) in Hin.
    specialize (D a Hin). destruct a as [[[[o z] j] m] op]. cbn [ready] in *. unfold decoded in *. now rewrite <- Cd, <- Hp.
  - intros x y Hx Hy. destruct (V x y Hx Hy) as (b & p & P1 & P2 & C). exists b, p. split; [exact P1|]. split; [exact P2|].
    apply laid_composed. apply (laid_file _ _ (af_file s) (af_file s')); [assumption|assumption|].
    apply (laid_exchanged _ _ _ _ _ _ _ HX). now apply composed_laid.
Qed.
Lemma exchanged_alike c i s i' s' : cfg_ok c -> is_bytes i -> addressable c i -> load c i = Ok s ->
  is_bytes i' -> addressable c i' -> load c i' = Ok s' ->
  same_canvas s s' -> f_palette (af_file s) = f_palette (af_file s') ->
  forall inflate, inflate_ok inflate -> sprite_fits c s -> sprite_fits c s' ->
  forall sel sel' k sf k' sf', nth_error (api_frames s) k = Some sf -> nth_error (api_frames s') k' = Some sf' ->
  exchanged (shown s sel (sf_cels sf)) (shown s' sel' (sf_cels sf')) ->
  forall target r, is_bytes target ->
  (render_frame c inflate s (Z.of_nat k) target sel = Ok r <->
   render_frame c inflate s' (Z.of_nat k') target sel' = Ok r).
Proof.
  intros Hc Hi Ha Hl Hi' Ha' Hl' (Cw & Ch & Cd) Hp inflate Hinf Hfit Hfit' sel sel' k sf k' sf' Hk Hk' HX t r Ht. split.
  - apply (exchanged_draws c i s i' s' Hc Hi Ha Hl Hi' Ha' Hl' (conj Cw (conj Ch Cd)) Hp inflate Hinf Hfit Hfit' sel sel' k sf k' sf' Hk Hk' HX t r Ht).
  - apply (exchanged_draws c i' s' i s Hc Hi' Ha' Hl' Hi Ha Hl (conj (eq_sym Cw) (conj (eq_sym Ch) (eq_sym Cd))) (eq_sym Hp) inflate Hinf Hfit' Hfit
             sel' sel k' sf' k sf Hk' Hk (exchanged_sym _ _ HX) t r Ht).
Qed.

(** ** Copies *)
Section Copy.
Context (c : cfg) (i : bytes) (s : ase_file).
Context (Hc : cfg_ok c) (Hi : is_bytes i) (Ha : addressable c i) (Hload : load c i = Ok s).
Context (inflate : inflater) (Hinf : inflate_ok inflate) (sel : layer_selection).
Context (phi : px -> px) (dx dy : Z) (f' : file).

Lemma copied_possible x y cels :
  (forall cel l, In cel cels -> drawn s sel cel = Some l -> forall g back front mid, is_px back -> is_px front -> is_byte (ly_opacity l) ->
     blend_mode_to_blend_fn c (ly_blend_mode l) = Ok g -> g back front (ly_opacity l) = Ok mid ->
     g (phi back) (phi front) (ly_opacity l) = Ok (phi mid)) ->
  forall back p, composed c inflate s sel x y cels back p -> is_px back ->
  forall l', Forall2 (copied inflate phi dx dy (af_file s) f') (shown s sel cels) l' -> Forall (ready inflate f') l' ->
  laid c inflate f' (x + dx) (y + dy) l' (phi back) (phi p).
Proof.
  intros S back p H. induction H as [back|cel cels back p Hs H IH|cel cels back l image front g mid p Hdr Hcov Him Hpx Hg Hm H IH];
    intros Hb l' HF HRD.
  - inversion HF; subst. constructor.
  - assert (S' : forall cel' l, In cel' cels -> drawn s sel cel' = Some l -> forall g back front mid, is_px back -> is_px front -> is_byte (ly_opacity l) ->
       blend_mode_to_blend_fn c (ly_blend_mode l) = Ok g -> g back front (ly_opacity l) = Ok mid ->
       g (phi back) (phi front) (ly_opacity l) = Ok (phi mid)) by (intros cel' l Hin; apply S; now right).
    cbn [shown flat_map] in HF. destruct (drawn s sel cel) as [l|] eqn:E; [|exact (IH S' Hb _ HF HRD)].
    destruct Hs as [Hs|Hs]; [discriminate|]. cbn [app] in HF.
    inversion HF as [|a b u v HR HF' E1 E2]; subst. destruct b as [[[[bo bz] bi] bm] bop]. cbn [copied] in HR.
    destruct HR as (-> & -> & -> & -> & HR). apply laid_skip.
    { rewrite <- Hs, covers_spans. unfold spans. cbn [fst snd].
      apply eq_true_iff_eq. rewrite !andb_true_iff, !Z.leb_le, !Z.ltb_lt. lia. }
    apply IH; [exact S'|exact Hb|exact HF'|]. now inversion HRD.
  - cbn [shown flat_map] in HF. rewrite Hdr in HF. cbn [app] in HF.
    inversion HF as [|a b u v HR HF' E1 E2]; subst. destruct b as [[[[bo bz] bi] bm] bop]. cbn [copied] in HR.
    destruct HR as (-> & -> & -> & -> & HR). inversion HRD as [|? ? R0 HRD']; subst. cbn [ready] in R0.
    destruct R0 as [(im' & image' & -> & I0) _].
    assert (Hf : is_px front) by (eapply pixel_px; [|exact Hpx]; eapply cel_image_bytes; eassumption).
    assert (Ho : is_byte (ly_opacity l)).
    { eapply layer_opacity; [exact Hc|exact Hi|exact Ha|exact Hload|]. eapply drawn_layer; eassumption. }
    assert (Pm : is_px mid).
    { pose proof (mode_fn c (ly_blend_mode l) g back front (ly_opacity l) Hb Hf Ho Hg) as G. rewrite Hm in G. exact G. }
    pose proof (S cel l (or_introl eq_refl) Hdr g back front mid Hb Hf Ho Hg Hm) as Hm'.
    destruct Him as (im & Eim & Him).
    rewrite covers_spans in Hcov. unfold spans in Hcov. rewrite !andb_true_iff, !Z.leb_le, !Z.ltb_lt in Hcov.
    pose proof (HR im im' image image' Eim eq_refl Him I0 (x - fst (fc_origin cel)) (y - snd (fc_origin cel)) ltac:(lia) ltac:(lia)) as HP.
    rewrite Hpx in HP. cbn [option_map] in HP.
    apply (laid_draw c inflate f' (x + dx) (y + dy) _ _ im' _ _ _ (phi back) image' (phi front) g (phi mid) (phi p)); try assumption.
    + unfold spans. cbn [fst snd]. rewrite !andb_true_iff, !Z.leb_le, !Z.ltb_lt. lia.
    + cbn [fst snd].
      replace (x + dx - (fst (fc_origin cel) + dx)) with (x - fst (fc_origin cel)) by lia.
      replace (y + dy - (snd (fc_origin cel) + dy)) with (y - snd (fc_origin cel)) by lia. exact HP.
    + apply IH; [|exact Pm|exact HF'|exact HRD']. intros cel' l'' Hin. apply S. now right.
Qed.
End Copy.

Lemma copy_drawn c i s i' s' : cfg_ok c -> is_bytes i -> addressable c i -> load c i = Ok s ->
  is_bytes i' -> addressable c i' -> load c i' = Ok s' ->
  forall inflate, inflate_ok inflate -> sprite_fits c s -> sprite_fits c s' ->
  forall sel sel' k sf k' sf', nth_error (api_frames s) k = Some sf -> nth_error (api_frames s') k' = Some sf' ->
  forall dx dy,
  Forall2 (copied inflate (fun p => p) dx dy (af_file s) (af_file s')) (shown s sel (sf_cels sf)) (shown s' sel' (sf_cels sf')) ->
  (forall cel l, In cel (sf_cels sf') -> drawn s' sel' cel = Some l -> exists image, cel_image inflate s' cel image) ->
  forall target target' r, is_bytes target -> is_bytes target' -> canvas_size s' <= zlen target' ->
  (forall x y, 0 <= x < canvas_width s' -> 0 <= y < canvas_height s' ->
     0 <= x - dx < canvas_width s /\ 0 <= y - dy < canvas_height s /\
     pixel (canvas_width s') target' x y = pixel (canvas_width s) target (x - dx) (y - dy)) ->
  render_frame c inflate s (Z.of_nat k) target sel = Ok r ->
  exists r', render_frame c inflate s' (Z.of_nat k') target' sel' = Ok r' /\
    forall x y, 0 <= x < canvas_width s' -> 0 <= y < canvas_height s' ->
      pixel (canvas_width s') r' x y = pixel (canvas_width s) r (x - dx) (y - dy).
Proof.
  intros Hc Hi Ha Hl Hi' Ha' Hl' inflate Hinf Hfit Hfit' sel sel' k sf k' sf' Hk Hk' dx dy HX HI t t' r Ht Ht' Hle HT Hr.
  pose proof Hr as Hr0.
  apply (render_exactly c i s Hc Hi Ha Hl inflate Hinf Hfit sel k sf t r Hk Ht) in Hr. destruct Hr as (_ & _ & _ & D & V).
  assert (M : Forall (ready inflate (af_file s')) (shown s' sel' (sf_cels sf'))).
  { assert (I' : forall a, In a (shown s' sel' (sf_cels sf')) -> let '(_, _, j, _, _) := a in
       exists im image, j = Some im /\ decoded inflate (af_file s') im (repeat 0 (Z.to_nat (rgba_size im))) image).
    { intros a Hin. unfold shown in Hin. apply in_flat_map in Hin as (cel & Hcel & Hin). destruct (drawn s' sel' cel) as [l|] eqn:E; [|destruct Hin].
      destruct Hin as [<-|[]]. destruct (HI cel l Hcel E) as (image & im & E1 & E2). eauto. }
    apply ready_shown in D. revert D I'. induction HX as [|a b u v HR HF IH]; intros D I'; constructor.
    - specialize (I' b (or_introl eq_refl)). inversion D as [|? ? M0 D']; subst.
      destruct a as [[[[ao az] ai] am] aop], b as [[[[bo bz] bi] bm] bop]. cbn [ready copied] in *.
      destruct HR as (_ & _ & -> & _). split; [exact I'|apply M0].
    - inversion D; subst. apply IH; [assumption|]. intros a' Hin. apply I'. now right. }
  assert (E : exists r', render_frame c inflate s' (Z.of_nat k') t' sel' = Ok r').
  { apply (render_possible c i' s' Hc Hi' Ha' Hl' inflate Hinf Hfit' sel' k' sf' t' Hk' Ht' Hle). split; [now apply ready_shown|].
    intros x y back Hx Hy P. destruct (HT x y Hx Hy) as (X1 & Y1 & T). destruct (V _ _ X1 Y1) as (b & p & P1 & _ & C).
    assert (b = back) as -> by congruence. exists p. apply laid_composed.
    replace x with (x - dx + dx) by lia. replace y with (y - dy + dy) by lia.
    apply (copied_possible c i s Hc Hi Ha Hl inflate Hinf sel (fun p => p) dx dy (af_file s') (x - dx) (y - dy) (sf_cels sf)); auto.
    exact (pixel_px _ _ _ _ _ Ht P1). }
  destruct E as [r' Hr']. exists r'. split; [exact Hr'|]. intros x y Hx Hy. destruct (HT x y Hx Hy) as (X1 & Y1 & T).
  pose proof (copied_same c i s i' s' Hc Hi Ha Hl Hi' Ha' Hl' inflate Hinf Hfit Hfit' sel sel' k sf k' sf' Hk Hk' dx dy HX t t' r r' Ht Ht' Hr0 Hr'
    (x - dx) (y - dy) X1 Y1) as G.
  rewrite !Z.sub_add in G. apply G; assumption.
Qed.
