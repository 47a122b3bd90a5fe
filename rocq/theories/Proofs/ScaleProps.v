(** Enlarged sprites (C121) *)
From Verif.Model Require Import Loader.
From Verif.Spec Require Import Bytes ImageSpec BlendSpec RenderSpec Refusals Made Convert Scaled.
From Verif.Proofs Require Import ImageFacts UnpackProps MadeProps TurnProps PlaceProps.

Lemma block n x : 0 < n -> exists i, 0 <= i < n /\ n * (x / n) + i = x.
Proof. intro H. exists (x mod n). split; [now apply Z.mod_pos_bound|]. symmetry. now apply Z.div_mod, not_eq_sym, Z.lt_neq. Qed.
Lemma block_of n x i : 0 <= i < n -> (n * x + i) / n = x.
Proof. intro H. symmetry. apply (Z.div_unique _ _ _ i); lia. Qed.
Lemma block_range n w x : 0 < n -> 0 <= x < n * w -> 0 <= x / n < w.
Proof. intros H [A B]. split; [apply Z.div_pos; lia|]. apply Z.div_lt_upper_bound; lia. Qed.
Lemma block_le n o x : 0 < n -> (n * o <=? x) = (o <=? x / n).
Proof.
  intro H. destruct (block n x H) as (i & Hi & E). rewrite <- E at 1.
  destruct (Z.leb_spec (n * o) (n * (x / n) + i)), (Z.leb_spec o (x / n)); try reflexivity; nia.
Qed.
Lemma block_lt n o x : 0 < n -> (x <? n * o) = (x / n <? o).
Proof. intro H. rewrite !Z.ltb_antisym. f_equal. now apply block_le. Qed.
Lemma block_sub n o x : 0 < n -> (x - n * o) / n = x / n - o.
Proof. intro H. replace (x - n * o) with (x + (- o) * n) by lia. rewrite Z.div_add by lia. lia. Qed.

Lemma scaled_back n m size d d' : 0 < n -> 0 < m -> scaled_pixels n m size d d' ->
  forall x y, 0 <= x < n * fst size -> 0 <= y < m * snd size -> pixel (n * fst size) d' x y = pixel (fst size) d (x / n) (y / m).
Proof.
  intros Hn Hm H x y Px Py. destruct (block n x Hn) as (i & Hi & Ei), (block m y Hm) as (j & Hj & Ej).
  rewrite <- Ei at 1. rewrite <- Ej at 1. apply H; auto using block_range.
Qed.

Section Scale.
Context (c : cfg) (inflate : inflater) (n m : Z) (s s' : ase_file) (sel : layer_selection).
Hypothesis Hn : 0 < n.
Hypothesis Hm : 0 < m.
Hypothesis Hcf : cels_fit_images s.
Hypothesis HS : scaled n m s s'.

Lemma scaled_covers cel cel' x y : scaled_cel n m cel cel' -> covers cel' x y = covers cel (x / n) (y / m).
Proof.
  intros (_ & _ & Es & Eo). unfold covers. rewrite Es, Eo. destruct (fc_origin cel) as [ox oy], (fc_size cel) as [w h].
  unfold scaled_size. cbn [fst snd]. rewrite <- !Z.mul_add_distr_l, !block_le, !block_lt by assumption. reflexivity.
Qed.

Lemma scaled_views f cel cel' : In f (af_frames s) -> In cel (sf_cels f) -> scaled_cel n m cel cel' ->
  (nth_error (af_images s) (Z.to_nat (fc_image_index cel)) = None /\
   nth_error (af_images s') (Z.to_nat (fc_image_index cel')) = None) \/
  exists im im', nth_error (af_images s) (Z.to_nat (fc_image_index cel)) = Some im /\
    nth_error (af_images s') (Z.to_nat (fc_image_index cel')) = Some im' /\ scaled_image n m im im' /\
    fc_size cel = image_size im /\ fc_size cel' = image_size im'.
Proof.
  intros Hf Hin (_ & Ei & Es & _). destruct HS as (_ & _ & _ & _ & HI & _). rewrite Ei.
  pose proof (Forall2_nth _ _ _ HI (Z.to_nat (fc_image_index cel))) as H.
  destruct (nth_error (af_images s) _) as [im|] eqn:E, (nth_error (af_images s') _) as [im'|]; try contradiction; [right|now left].
  exists im, im'. do 3 (split; [auto|]). pose proof (Hcf f cel im Hf Hin E) as H1. split; [exact H1|].
  destruct H as (_ & _ & H2 & _). congruence.
Qed.

Lemma scaled_drawn cel cel' : scaled_cel n m cel cel' -> drawn s' sel cel' = drawn s sel cel.
Proof. intros (El & _). destruct HS as (_ & _ & _ & Ely & _). unfold drawn. now rewrite El, Ely. Qed.

Lemma covers_inside cel x y : covers cel x y = true ->
  0 <= x - fst (fc_origin cel) < fst (fc_size cel) /\ 0 <= y - snd (fc_origin cel) < snd (fc_size cel).
Proof. unfold covers. destruct (fc_origin cel), (fc_size cel). cbn. lia. Qed.

(** To the larger sprite ... *)
Lemma scaled_placed f cel cel' : In f (af_frames s) -> In cel (sf_cels f) -> scaled_cel n m cel cel' ->
  placed inflate s s' sel sel (fun x => x / n) (fun y => y / m) cel cel'.
Proof.
  intros Hf Hin HR. split; [now apply scaled_drawn|]. split; [intros; now apply scaled_covers|]. intros view Hv.
  pose proof HS as (Hd & Hd' & _).
  destruct (scaled_views f cel cel' Hf Hin HR) as [[N _]|(im & im' & E1 & E2 & HI & S1 & S2)].
  { destruct Hv as (im & _ & E & _). congruence. }
  pose proof HI as (P1 & P2 & Hsize & Hpix). apply (plain_view inflate s cel im Hd E1 P1 S1) in Hv. subst view.
  exists (im_data im'). split; [now apply (plain_view inflate s' cel' im' Hd' E2 P2 S2)|]. intros x y _ _ Hcov.
  destruct (covers_inside _ _ _ Hcov) as [Ix Iy]. destruct HR as (_ & _ & Es & Eo).
  rewrite S2, Hsize in *. rewrite S1 in *. unfold scaled_size in Ix, Iy |- *. cbn [fst snd] in Ix, Iy |- *.
  rewrite (scaled_back n m (image_size im) _ _ Hn Hm Hpix) by assumption.
  rewrite Eo. cbn [scaled_size fst snd]. now rewrite !block_sub.
Qed.

(** ... and back *)
Lemma scaled_placed_back f cel cel' : In f (af_frames s) -> In cel (sf_cels f) -> scaled_cel n m cel cel' ->
  placed inflate s' s sel sel (fun x => n * x) (fun y => m * y) cel' cel.
Proof.
  intros Hf Hin HR. split; [symmetry; now apply scaled_drawn|].
  assert (HC : forall x y, covers cel x y = covers cel' (n * x) (m * y)).
  { intros x y. rewrite (scaled_covers _ _ _ _ HR). f_equal; symmetry; rewrite Z.mul_comm; apply Z.div_mul; lia. }
  split; [intros; apply HC|]. intros view Hv. pose proof HS as (Hd & Hd' & _).
  destruct (scaled_views f cel cel' Hf Hin HR) as [[_ N]|(im & im' & E1 & E2 & HI & S1 & S2)].
  { destruct Hv as (im & _ & E & _). congruence. }
  pose proof HI as (P1 & P2 & Hsize & Hpix). apply (plain_view inflate s' cel' im' Hd' E2 P2 S2) in Hv. subst view.
  exists (im_data im). split; [now apply (plain_view inflate s cel im Hd E1 P1 S1)|]. intros x y _ _ Hcov.
  destruct (covers_inside _ _ _ Hcov) as [Ix Iy]. destruct HR as (_ & _ & Es & Eo).
  rewrite S2, Hsize. rewrite S1 in *. rewrite <- (Hpix _ _ 0 0 Ix Iy) by lia.
  rewrite Eo. unfold scaled_size. cbn [fst snd]. f_equal; lia.
Qed.

Lemma scaled_all f cels cels' (P Q : frame_cel -> frame_cel -> Prop) :
  (forall cel cel', In f (af_frames s) -> In cel (sf_cels f) -> P cel cel' -> Q cel cel') ->
  In f (af_frames s) -> (forall cel, In cel cels -> In cel (sf_cels f)) -> Forall2 P cels cels' -> Forall2 Q cels cels'.
Proof.
  intros H Hf Hin HF. induction HF as [|cel cel' cels cels' HR HF IH]; constructor.
  - apply H; auto. apply Hin. now left.
  - apply IH. intros. apply Hin. now right.
Qed.
End Scale.

Lemma Forall2_swap {A B} (R : A -> B -> Prop) l l' : Forall2 R l l' -> Forall2 (fun y x => R x y) l' l.
Proof. induction 1; constructor; auto. Qed.

Section Frames.
Context (c : cfg) (inflate : inflater) (n m : Z) (s s' : ase_file) (sel : layer_selection).
Hypothesis Hc : cfg_ok c.
Hypothesis Hinf : inflate_ok inflate.
Hypothesis Hn : 0 < n.
Hypothesis Hm : 0 < m.
Hypothesis Hty : typed c s.
Hypothesis Hty' : typed c s'.
Hypothesis Hfit : made_fits c s.
Hypothesis Hfit' : made_fits c s'.
Hypothesis Hcf : cels_fit_images s.
Hypothesis HS : scaled n m s s'.

Lemma scaled_frames k target target' r : is_bytes target -> is_bytes target' -> canvas_size s' <= zlen target' ->
  scaled_pixels n m (canvas s) target target' ->
  render_frame c inflate s (Z.of_nat k) target sel = Ok r ->
  exists r', render_frame c inflate s' (Z.of_nat k) target' sel = Ok r' /\ scaled_pixels n m (canvas s) r r'.
Proof.
  intros Hb Hb' Hl Htp Hok. pose proof HS as (_ & _ & Hcv & _ & _ & HFr).
  assert (Ew : canvas_width s' = n * canvas_width s) by (unfold canvas, scaled_size in Hcv; now injection Hcv).
  assert (Eh : canvas_height s' = m * canvas_height s) by (unfold canvas, scaled_size in Hcv; now injection Hcv).
  destruct (nth_error (api_frames s) k) as [sf|] eqn:Hk.
  2: { destruct (made_other c s Hc Hty Hfit inflate Hinf sel k target Hb) as [HE HN].
       destruct (Z.ltb_spec (zlen target) (canvas_size s)).
       - rewrite (proj2 (HE TargetBufferTooSmall target)) in Hok by auto. discriminate.
       - rewrite HN in Hok by (assumption || lia). discriminate. }
  pose proof (nth_error_In _ _ Hk) as Hin. destruct (Forall2_nth_some _ _ _ _ _ HFr Hk) as (sf' & Hk' & HC).
  assert (Hx : forall x, 0 <= x < canvas_width s' -> 0 <= x / n < canvas_width s) by (intros x Px; rewrite Ew in Px; now apply block_range).
  assert (Hy : forall y, 0 <= y < canvas_height s' -> 0 <= y / m < canvas_height s) by (intros y Py; rewrite Eh in Py; now apply block_range).
  assert (HF : Forall2 (placed inflate s s' sel sel (fun x => x / n) (fun y => y / m)) (sf_cels sf) (sf_cels sf')).
  { apply (scaled_all s sf _ _ (scaled_cel n m)); auto. intros. now apply (scaled_placed inflate n m s s' sel Hn Hm Hcf HS sf). }
  destruct (placed_frames c inflate s s' sel sel Hc Hinf Hty Hty' Hfit Hfit' _ _ Hx Hy k sf sf' target target' r Hk Hk' HF Hb Hb' Hl)
    as (r' & Hr' & Hp); [|exact Hok|].
  - intros x y Px Py. rewrite Ew in *. rewrite Eh in *. now apply (scaled_back n m (canvas s)).
  - exists r'. split; [exact Hr'|]. intros x y i j Px Py Hi Hj. cbn [canvas fst snd] in *.
    rewrite <- Ew, Hp by (rewrite ?Ew, ?Eh; nia). now rewrite !block_of.
Qed.

Lemma scaled_frames_back k target target' r' : is_bytes target -> is_bytes target' -> canvas_size s <= zlen target ->
  scaled_pixels n m (canvas s) target target' ->
  render_frame c inflate s' (Z.of_nat k) target' sel = Ok r' ->
  exists r, render_frame c inflate s (Z.of_nat k) target sel = Ok r.
Proof.
  intros Hb Hb' Hl Htp Hok. pose proof HS as (_ & _ & Hcv & _ & _ & HFr).
  assert (Ew : canvas_width s' = n * canvas_width s) by (unfold canvas, scaled_size in Hcv; now injection Hcv).
  assert (Eh : canvas_height s' = m * canvas_height s) by (unfold canvas, scaled_size in Hcv; now injection Hcv).
  destruct (nth_error (api_frames s') k) as [sf'|] eqn:Hk'.
  2: { destruct (made_other c s' Hc Hty' Hfit' inflate Hinf sel k target' Hb') as [HE HN].
       destruct (Z.ltb_spec (zlen target') (canvas_size s')).
       - rewrite (proj2 (HE TargetBufferTooSmall target')) in Hok by auto. discriminate.
       - rewrite HN in Hok by (assumption || lia). discriminate. }
  destruct (Forall2_nth_some _ _ _ _ _ (Forall2_swap _ _ _ HFr) Hk') as (sf & Hk & HC). pose proof (nth_error_In _ _ Hk) as Hin.
  assert (Hx : forall x, 0 <= x < canvas_width s -> 0 <= n * x < canvas_width s') by (intros x Px; rewrite Ew; nia).
  assert (Hy : forall y, 0 <= y < canvas_height s -> 0 <= m * y < canvas_height s') by (intros y Py; rewrite Eh; nia).
  assert (HF : Forall2 (placed inflate s' s sel sel (fun x => n * x) (fun y => m * y)) (sf_cels sf') (sf_cels sf)).
  { apply Forall2_swap. apply (scaled_all s sf _ _ (scaled_cel n m)); auto.
    intros. now apply (scaled_placed_back inflate n m s s' sel Hn Hm Hcf HS sf). }
  destruct (placed_frames c inflate s' s sel sel Hc Hinf Hty' Hty Hfit' Hfit _ _ Hx Hy k sf' sf target' target r' Hk' Hk HF Hb' Hb Hl)
    as (r & Hr & _); [|exact Hok|now exists r].
  - intros x y Px Py. rewrite Ew. specialize (Htp x y 0 0). cbn [canvas fst snd] in Htp. rewrite <- Htp by (assumption || lia). f_equal; lia.
Qed.
End Frames.
