(** Consequences of pixelwise composition. *)
From Verif.Model Require Import Loader.
From Verif.Spec Require Import Bytes ImageSpec BlendSpec RenderSpec.
From Verif.Proofs Require Import BlendProps FileFacts LoaderFacts LoaderProps FileFinal ImageProps RenderFacts RenderProps.

Lemma composed_app c inflate s sel x y a b : forall back p, composed c inflate s sel x y (a ++ b) back p ->
  exists m, composed c inflate s sel x y a back m /\ composed c inflate s sel x y b m p.
Proof.
  induction a as [|cel a IH]; intros back p H; [exists back; split; [constructor|exact H]|].
  cbn [app] in H. inversion H; subst.
  - match goal with H : composed _ _ _ _ _ _ (a ++ b) _ _ |- _ => destruct (IH _ _ H) as (m & G1 & G2) end.
    exists m. split; [apply composed_skip; assumption|exact G2].
  - match goal with H : composed _ _ _ _ _ _ (a ++ b) _ _ |- _ => destruct (IH _ _ H) as (m & G1 & G2) end.
    exists m. split; [eapply composed_draw; eassumption|exact G2].
Qed.

Lemma composed_uncovered c inflate s sel x y cels : 
  (forall cel l, In cel cels -> drawn s sel cel = Some l -> covers cel x y = false) ->
  forall back p, composed c inflate s sel x y cels back p -> p = back.
Proof.
  induction cels as [|cel cels IH]; intros H back p Hp; inversion Hp; subst; [reflexivity| |].
  - eapply IH; [|eassumption]. intros cel' l Hin. apply H. now right.
  - rewrite (H cel l (or_introl eq_refl)) in * by assumption. discriminate.
Qed.

Lemma pixel_px w t x y p : is_bytes t -> pixel w t x y = Some p -> is_px p.
Proof.
  unfold pixel, quad. intros Hb. generalize (4 * Z.to_nat (y * w + x))%nat as n. intro n.
  assert (Hs : is_bytes (skipn n t)).
  { unfold is_bytes in *. rewrite <- (firstn_skipn n t) in Hb. apply Forall_app in Hb. apply Hb. }
  destruct (skipn n t) as [|r [|g [|b [|a l]]]]; try discriminate. intros [= <-].
  unfold is_bytes in Hs. rewrite !Forall_cons_iff in Hs. unfold is_px. cbn. tauto.
Qed.

Section Canvas.
Context (c : cfg) (i : bytes) (s : ase_file).
Context (Hc : cfg_ok c) (Hi : is_bytes i) (Ha : addressable c i) (Hload : load c i = Ok s).
Context (inflate : inflater) (Hinf : inflate_ok inflate) (sel : layer_selection).

(** One step preserves an invariant that every blend function preserves. *)
Lemma composed_invariant (P : px -> px -> Prop) x y cels :
  (forall p, P p p) -> (forall p q r, P p q -> P q r -> P p r) ->
  (forall cel l back front f mid, In cel cels -> drawn s sel cel = Some l -> is_px back -> is_px front -> is_byte (ly_opacity l) ->
     blend_mode_to_blend_fn c (ly_blend_mode l) = Ok f -> f back front (ly_opacity l) = Ok mid -> is_px mid -> P back mid) ->
  forall back p, is_px back -> composed c inflate s sel x y cels back p -> is_px p /\ P back p.
Proof.
  intros R T. induction cels as [|cel cels IH]; intros S back p Hb Hp; inversion Hp; subst; [auto| |].
  - apply IH; try assumption. intros cel' l' b' f' g m Hin. apply S. now right.
  - assert (Hf : is_px front).
    { eapply pixel_px; [|eassumption]. eapply cel_image_bytes; eassumption. }
    assert (Ho : is_byte (ly_opacity l)).
    { eapply layer_opacity; [exact Hc|exact Hi|exact Ha|exact Hload|]. eapply drawn_layer; eassumption. }
    assert (Hm : is_px mid).
    { pose proof (mode_fn c (ly_blend_mode l) f back front (ly_opacity l) Hb Hf Ho ltac:(assumption)) as G.
      match goal with E : f back front _ = Ok mid |- _ => rewrite E in G end. exact G. }
    destruct (IH (fun cel' l' b' f' g m Hin => S cel' l' b' f' g m (or_intror Hin)) mid p Hm ltac:(assumption)) as [Hpx HP].
    split; [exact Hpx|]. eapply T; [|exact HP].
    exact (S cel l back front f mid (or_introl eq_refl) ltac:(assumption) Hb Hf Ho ltac:(assumption) ltac:(assumption) Hm).
Qed.

Context (Hfit : sprite_fits c s).
Context (k : nat) (sf : sframe) (Hk : nth_error (api_frames s) k = Some sf).

Lemma pixels_kept t r x y : is_bytes t -> render_frame c inflate s (Z.of_nat k) t sel = Ok r ->
  0 <= x < canvas_width s -> 0 <= y < canvas_height s ->
  (forall cel l, In cel (sf_cels sf) -> drawn s sel cel = Some l -> covers cel x y = false) ->
  pixel (canvas_width s) r x y = pixel (canvas_width s) t x y.
Proof.
  intros Hb Hr Hx Hy Hn.
  destruct (render_composes c i s Hc Hi Ha Hload inflate Hinf Hfit sel k sf t r Hk Hb Hr x y Hx Hy) as (back & p & H1 & H2 & H3).
  rewrite H1, H2. f_equal. eapply composed_uncovered; [exact Hn|exact H3].
Qed.

(** A pixel right after an opaque one has been drawn over it. *)
Lemma composed_opaque x y cel l image front cels back p : is_px back ->
  drawn s sel cel = Some l -> ly_blend_mode l = BNormal -> ly_opacity l = 255 -> covers cel x y = true ->
  cel_image inflate s cel image ->
  pixel (fst (fc_size cel)) image (x - fst (fc_origin cel)) (y - snd (fc_origin cel)) = Some front -> pa front = 255 ->
  composed c inflate s sel x y (cel :: cels) back p -> composed c inflate s sel x y cels front p.
Proof.
  intros Hb Hd Hm Ho Hcov Himg Hpx Hal H. inversion H as [|? ? ? ? [E|E] H'|? ? ? l' image' front' f mid ? Hd' Hcov' Himg' Hpx' Ef Em H'];
    [congruence|congruence|]. subst.
  assert (l' = l) as -> by congruence. assert (image' = image) as -> by (eapply cel_image_unique; eassumption).
  assert (front' = front) as -> by congruence.
  assert (Hf : is_px front) by (eapply pixel_px; [|exact Hpx]; eapply cel_image_bytes; eassumption).
  rewrite Hm in Ef. injection Ef as <-. rewrite Ho in Em.
  destruct (normal_laws c back front 255 Hb Hf ltac:(unfold is_byte; lia)) as (r & Er & _ & Hl & _).
  rewrite Er in Em. injection Em as <-. rewrite (Hl Hal eq_refl) in H'. exact H'.
Qed.

Lemma pixels_hidden t t' r r' x y cel l image front : is_bytes t -> is_bytes t' ->
  render_frame c inflate s (Z.of_nat k) t sel = Ok r -> render_frame c inflate s (Z.of_nat k) t' sel = Ok r' ->
  0 <= x < canvas_width s -> 0 <= y < canvas_height s ->
  In cel (sf_cels sf) -> drawn s sel cel = Some l -> ly_blend_mode l = BNormal -> ly_opacity l = 255 -> covers cel x y = true ->
  cel_image inflate s cel image ->
  pixel (fst (fc_size cel)) image (x - fst (fc_origin cel)) (y - snd (fc_origin cel)) = Some front -> pa front = 255 ->
  pixel (canvas_width s) r x y = pixel (canvas_width s) r' x y.
Proof.
  intros Hb Hb' Hr Hr' Hx Hy Hin Hd Hm Ho Hcov Himg Hpx Hal.
  destruct (render_composes c i s Hc Hi Ha Hload inflate Hinf Hfit sel k sf t r Hk Hb Hr x y Hx Hy) as (back & p & H1 & H2 & H3).
  destruct (render_composes c i s Hc Hi Ha Hload inflate Hinf Hfit sel k sf t' r' Hk Hb' Hr' x y Hx Hy) as (back' & p' & H1' & H2' & H3').
  rewrite H2, H2'. f_equal. apply in_split in Hin as (a & b & E). rewrite E in H3, H3'.
  apply composed_app in H3 as (m & G1 & G2), H3' as (m' & G1' & G2').
  assert (Hmid : forall q n, is_px q -> composed c inflate s sel x y a q n -> is_px n).
  { intros q n Hq Hn. apply (composed_invariant (fun _ _ => True) x y a) with (back := q); auto. }
  eapply composed_unique.
  - eapply composed_opaque; [|exact Hd|exact Hm|exact Ho|exact Hcov|exact Himg|exact Hpx|exact Hal|exact G2].
    eapply Hmid; [|exact G1]. exact (pixel_px _ _ _ _ _ Hb H1).
  - eapply composed_opaque; [|exact Hd|exact Hm|exact Ho|exact Hcov|exact Himg|exact Hpx|exact Hal|exact G2'].
    eapply Hmid; [|exact G1']. exact (pixel_px _ _ _ _ _ Hb' H1').
Qed.

Lemma pixels_on_top t r x y a cel b l image front : is_bytes t ->
  render_frame c inflate s (Z.of_nat k) t sel = Ok r ->
  0 <= x < canvas_width s -> 0 <= y < canvas_height s ->
  sf_cels sf = a ++ cel :: b -> (forall cel l, In cel b -> drawn s sel cel = Some l -> covers cel x y = false) ->
  drawn s sel cel = Some l -> ly_blend_mode l = BNormal -> ly_opacity l = 255 -> covers cel x y = true ->
  cel_image inflate s cel image ->
  pixel (fst (fc_size cel)) image (x - fst (fc_origin cel)) (y - snd (fc_origin cel)) = Some front -> pa front = 255 ->
  pixel (canvas_width s) r x y = Some front.
Proof.
  intros Hb Hr Hx Hy E Hn Hd Hm Ho Hcov Himg Hpx Hal.
  destruct (render_composes c i s Hc Hi Ha Hload inflate Hinf Hfit sel k sf t r Hk Hb Hr x y Hx Hy) as (back & p & H1 & H2 & H3).
  rewrite H2. f_equal. rewrite E in H3. apply composed_app in H3 as (m & G1 & G2).
  eapply composed_uncovered; [exact Hn|].
  eapply composed_opaque; [|exact Hd|exact Hm|exact Ho|exact Hcov|exact Himg|exact Hpx|exact Hal|exact G2].
  apply (composed_invariant (fun _ _ => True) x y a) with (back := back); auto. exact (pixel_px _ _ _ _ _ Hb H1).
Qed.

(** ** Alpha *)
Lemma alpha_grows t r x y p q : is_bytes t -> render_frame c inflate s (Z.of_nat k) t sel = Ok r ->
  0 <= x < canvas_width s -> 0 <= y < canvas_height s ->
  (forall cel l, In cel (sf_cels sf) -> drawn s sel cel = Some l -> separable (ly_blend_mode l)) ->
  pixel (canvas_width s) t x y = Some p -> pixel (canvas_width s) r x y = Some q -> pa p <= pa q.
Proof.
  intros Hb Hr Hx Hy Hsep Hp Hq.
  destruct (render_composes c i s Hc Hi Ha Hload inflate Hinf Hfit sel k sf t r Hk Hb Hr x y Hx Hy) as (back & p' & H1 & H2 & H3).
  assert (back = p) as -> by congruence. assert (p' = q) as -> by congruence.
  apply (composed_invariant (fun a b => pa a <= pa b) x y (sf_cels sf)) with (back := p) (p := q); [lia..| |exact (pixel_px _ _ _ _ _ Hb Hp)|exact H3].
  intros cel l back front f mid Hin Hd Hbk Hfr Ho Ef Em _.
  destruct (normal_laws c back front (ly_opacity l) Hbk Hfr Ho) as (n & En & _ & _ & _ & _ & _ & Hle & _).
  pose proof (same_alpha (ly_blend_mode l) back front (ly_opacity l) (Hsep cel l Hin Hd) Hbk Hfr Ho c f mid n Ef Em En). lia.
Qed.

Lemma opaque_step m back front o f mid : is_px back -> is_px front -> is_byte o -> pa back = 255 ->
  blend_mode_to_blend_fn c m = Ok f -> f back front o = Ok mid -> pa mid = 255.
Proof.
  intros Hb Hf Ho E Ef Em.
  assert (G : exists p, is_px p /\ normal c back p o = Ok mid).
  { destruct (mode_cases m) as [[Hs|Hh]|[w ->]]; [| |rewrite unknown_mode in Ef; discriminate].
    - destruct (over_opaque m back front Hs Hb Hf E) as (p & Hp & _ & _ & _ & _ & H). exists p. split; [exact Hp|].
      destruct (H c) as (f' & Ef' & H'). rewrite <- (H' o Ho). congruence.
    - destruct (hsl_wrong_alpha m back front Hh Hb Hf E) as (p & Hp & _ & H). exists p. split; [exact Hp|].
      destruct (debug c) eqn:Ed.
      + (* the release build gives the same *)
        assert (Hw : usize_bits c = usize_bits c) by reflexivity.
        destruct (hsl_outcomes m back front o Hh Hb Hf Ho) as (r & _ & Hr & Hd).
        destruct (Hd c Ed) as (f1 & Ef1 & [H1|H1]); [congruence|]. assert (r = mid) as -> by congruence.
        pose (c' := {| debug := false; usize_bits := usize_bits c |}).
        destruct (Hr c' eq_refl) as (f2 & Ef2 & H2). destruct (H c' eq_refl) as (f3 & Ef3 & H3).
        assert (f2 = f3) as -> by congruence. rewrite (H3 o Ho) in H2.
        destruct (normal_laws c back p o Hb Hp Ho) as (n & En & _). rewrite En. f_equal.
        destruct (no_panic BNormal back p o I Hb Hp Ho) as (n' & _ & Hn).
        destruct (Hn c) as (g & Eg & Hg). destruct (Hn c') as (g' & Eg' & Hg'). cbn in Eg, Eg'. injection Eg as <-. injection Eg' as <-.
        congruence.
      + destruct (H c Ed) as (f' & Ef' & H'). rewrite <- (H' o Ho). congruence. }
  destruct G as (p & Hp & G). destruct (normal_laws c back p o Hb Hp Ho) as (n & En & (_ & _ & _ & Hn) & _ & _ & _ & _ & Hle & _).
  assert (n = mid) as -> by congruence. unfold is_byte in Hn. lia.
Qed.

Lemma opaque_stays t r x y p q : is_bytes t -> render_frame c inflate s (Z.of_nat k) t sel = Ok r ->
  0 <= x < canvas_width s -> 0 <= y < canvas_height s ->
  pixel (canvas_width s) t x y = Some p -> pixel (canvas_width s) r x y = Some q -> pa p = 255 -> pa q = 255.
Proof.
  intros Hb Hr Hx Hy Hp Hq.
  destruct (render_composes c i s Hc Hi Ha Hload inflate Hinf Hfit sel k sf t r Hk Hb Hr x y Hx Hy) as (back & p' & H1 & H2 & H3).
  assert (back = p) as -> by congruence. assert (p' = q) as -> by congruence.
  apply (composed_invariant (fun a b => pa a = 255 -> pa b = 255) x y (sf_cels sf)) with (back := p) (p := q);
    [auto..| |exact (pixel_px _ _ _ _ _ Hb Hp)|exact H3].
  intros cel l back front f mid Hin Hd Hbk Hfr Ho Ef Em _ E. eapply opaque_step; [exact Hbk|exact Hfr|exact Ho|exact E|exact Ef|exact Em].
Qed.
End Canvas.
