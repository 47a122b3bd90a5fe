(** Canvases and pictures that differ (C129). *)
From Verif.Model Require Import Loader.
From Verif.Spec Require Import Bytes BlendSpec ImageSpec RenderSpec Stable.
From Verif.Proofs Require Import BlendFacts BlendProps SoftOrder CanvasProps RenderFacts RenderProps.
From Coq Require Import ZifyBool.

Definition pxrel (R : Z -> Z -> Prop) (p q : px) : Prop := pa p = pa q /\ R (pr p) (pr q) /\ R (pg p) (pg q) /\ R (pb p) (pb q).
Definition dist (d x y : Z) : Prop := Z.abs (x - y) <= d.

(** A relation that survives mixing *)
Record good (R : Z -> Z -> Prop) : Prop := {
  good_refl : forall x, R x x;
  good_over : forall b b' s s' fa ra, 0 <= fa <= ra -> 0 < ra -> R b b' -> R s s' ->
    R (over_channel b s fa ra) (over_channel b' s' fa ra);
  good_mix : forall b b' s s' o, is_byte o -> R b b' -> R s s' -> R (mix b s o) (mix b' s' o) }.

Lemma quot_mono n n' r : 0 < r -> n <= n' -> Z.quot n r <= Z.quot n' r.
Proof. intros Hr H. apply Z.quot_le_mono; lia. Qed.
Lemma quot_less n k r : 0 < r -> 0 <= k -> Z.quot n r - k <= Z.quot (n - r * k) r.
Proof.
  intros Hr Hk. destruct (Z.le_gt_cases 0 (n - r * k)) as [H|H].
  - rewrite !Z.quot_div_nonneg by nia. replace (n - r * k) with (n + - k * r) by ring. rewrite Z.div_add by lia. lia.
  - pose proof (Z.quot_rem' n r). pose proof (Z.quot_rem' (n - r * k) r).
    pose proof (Z.rem_bound_abs n r). pose proof (Z.rem_bound_abs (n - r * k) r).
    pose proof (Z.rem_nonpos (n - r * k) r ltac:(lia) ltac:(lia)).
    destruct (Z.le_gt_cases 0 n).
    + pose proof (Z.rem_nonneg n r ltac:(lia) ltac:(lia)). nia.
    + pose proof (Z.rem_nonpos n r ltac:(lia) ltac:(lia)). nia.
Qed.
Lemma over_mono b b' s s' fa ra : 0 <= fa <= ra -> 0 < ra -> b <= b' -> s <= s' -> over_channel b s fa ra <= over_channel b' s' fa ra.
Proof.
  intros Hf Hr Hb Hs. unfold over_channel.
  pose proof (quot_mono ((s - b') * fa) ((s' - b') * fa) ra Hr ltac:(nia)).
  pose proof (quot_mono ((s - b) * fa - ra * (b' - b)) ((s - b') * fa) ra Hr ltac:(nia)).
  pose proof (quot_less ((s - b) * fa) (b' - b) ra Hr ltac:(lia)). lia.
Qed.
Lemma over_shift b s fa ra d : over_channel (b + d) (s + d) fa ra = over_channel b s fa ra + d.
Proof. unfold over_channel. replace (s + d - (b + d)) with (s - b) by ring. ring. Qed.

Lemma div255_mono n n' : n <= n' -> div255 n <= div255 n'.
Proof. unfold div255. intro H. apply Z.div_le_mono; [lia|]. pose proof (Z.div_le_mono (n + 128) (n' + 128) 256). lia. Qed.
Lemma div255_less n k : 0 <= k -> div255 n - k <= div255 (n - 255 * k).
Proof. unfold div255. intro Hk. Z.div_mod_to_equations. lia. Qed.
Lemma mix_mono b b' s s' o : is_byte o -> b <= b' -> s <= s' -> mix b s o <= mix b' s' o.
Proof.
  unfold is_byte, mix. intros Ho Hb Hs.
  pose proof (div255_mono ((s - b') * o) ((s' - b') * o) ltac:(nia)).
  pose proof (div255_mono ((s - b) * o - 255 * (b' - b)) ((s - b') * o) ltac:(nia)).
  pose proof (div255_less ((s - b) * o) (b' - b) ltac:(lia)). lia.
Qed.
Lemma mix_shift b s o d : mix (b + d) (s + d) o = mix b s o + d.
Proof. unfold mix. replace (s + d - (b + d)) with (s - b) by ring. ring. Qed.

Lemma good_le : good Z.le.
Proof. split; [intro; lia|intros; now apply over_mono|intros; now apply mix_mono]. Qed.
Lemma good_dist d : 0 <= d -> good (dist d).
Proof.
  intro Hd. unfold dist. split; [intro; lia| |].
  - intros b b' s s' fa ra Hf Hr Hb Hs.
    pose proof (over_mono b (b' + d) s (s' + d) fa ra Hf Hr ltac:(lia) ltac:(lia)).
    pose proof (over_mono b' (b + d) s' (s + d) fa ra Hf Hr ltac:(lia) ltac:(lia)). rewrite over_shift in *. lia.
  - intros b b' s s' o Ho Hb Hs.
    pose proof (mix_mono b (b' + d) s (s' + d) o Ho ltac:(lia) ltac:(lia)).
    pose proof (mix_mono b' (b + d) s' (s + d) o Ho ltac:(lia) ltac:(lia)). rewrite mix_shift in *. lia.
Qed.

Section Good.
Context (R : Z -> Z -> Prop) (HR : good R).

Lemma normal_px_rel back back' p p' o : is_px back -> is_px p -> is_byte o -> pxrel R back back' -> pxrel R p p' ->
  pxrel R (normal_px back p o) (normal_px back' p' o).
Proof.
  intros Hb Hp Ho (Ea & B1 & B2 & B3) (Ep & P1 & P2 & P3). unfold normal_px. rewrite <- Ea, <- Ep.
  destruct (Z.eqb_spec (pa back) 0) as [|Hz].
  { split; [reflexivity|]. cbn [pr pg pb mkpx]. auto. }
  destruct (pa p =? 0); [split; auto|].
  assert (Bf : is_byte (div255 (pa p * o))) by now apply fa_byte.
  pose proof (over_alpha_bounds (pa back) _ ltac:(apply Hb) Bf) as Bo. assert (Ba : is_byte (pa back)) by apply Hb. unfold is_byte in *.
  split; [reflexivity|]. cbn [pr pg pb mkpx]. split; [|split]; apply (good_over R HR); (assumption || lia).
Qed.
Lemma merge_px_rel back back' p p' o : is_byte o -> pxrel R back back' -> pxrel R p p' ->
  pxrel R (merge_px back p o) (merge_px back' p' o).
Proof.
  intros Ho (Ea & B1 & B2 & B3) (Ep & P1 & P2 & P3). unfold merge_px. rewrite <- Ea, <- Ep.
  destruct (_ =? 0). { split; [reflexivity|]. cbn. pose proof (good_refl R HR). auto. }
  destruct (_ =? 0). { split; [reflexivity|]. cbn. auto. }
  destruct (_ =? 0). { split; [reflexivity|]. cbn. auto. }
  split; [reflexivity|]. cbn [pr pg pb mkpx]. split; [|split]; apply (good_mix R HR); assumption.
Qed.
Lemma blend_px_rel back back' front front' p p' o : is_px back -> is_px front -> is_px p -> is_byte o ->
  pxrel R back back' -> pxrel R front front' -> pxrel R p p' ->
  pxrel R (blend_px back front p o) (blend_px back' front' p' o).
Proof.
  intros Hb Hf Hp Ho HB HF HP. unfold blend_px. pose proof HB as (Ea & _). pose proof HF as (Ef & _). rewrite <- Ea, <- Ef.
  destruct (_ =? 0); [now apply normal_px_rel|].
  assert (is_byte (pa back)) by apply Hb. assert (is_byte (div255 (pa back * div255 (pa front * o)))).
  { apply div255_byte, prod_byte; [assumption|now apply fa_byte]. }
  repeat first [apply merge_px_rel | apply normal_px_rel]; assumption.
Qed.

(** One pixel *)
Lemma mode_rel m (S : Z -> Z -> Prop) : separable m ->
  (m = BSoftLight -> forall b b' q q', is_byte b -> is_byte b' -> R b b' -> formula m b b q -> formula m b' b' q' -> R q q') ->
  (forall x y, S x y -> R x y) ->
  (forall b b' s s' q q', is_byte b -> is_byte b' -> is_byte s -> is_byte s' -> is_byte q -> is_byte q' -> R b b' -> S s s' ->
     formula m b s q -> formula m b' s' q' -> R q q') ->
  forall c f back back' front front' o r r', is_px back -> is_px back' -> is_px front -> is_px front' -> is_byte o ->
  pxrel R back back' -> pxrel S front front' -> blend_mode_to_blend_fn c m = Ok f ->
  f back front o = Ok r -> f back' front' o = Ok r' -> pxrel R r r'.
Proof.
  intros Hs Hn HS HQ c f back back' front front' o r r' Hb Hb' Hf Hf' Ho HB HF Em E E'.
  assert (HF' : pxrel R front front') by (destruct HF as (A & B & C & D); split; [|split; [|split]]; auto).
  destruct (mode_eq m back front Hs Hb Hf) as (p & (Hp & Ep & F1 & F2 & F3) & H). destruct (H c) as (g & Eg & G).
  destruct (mode_eq m back' front' Hs Hb' Hf') as (p' & (Hp' & Ep' & F1' & F2' & F3') & H'). destruct (H' c) as (g' & Eg' & G').
  assert (g = f) as -> by congruence. assert (g' = f) as -> by congruence.
  rewrite G in E by exact Ho. rewrite G' in E' by exact Ho. injection E as <-. injection E' as <-.
  assert (HP : pxrel R p p').
  { destruct HB as (_ & B1 & B2 & B3), HF as (Ef & K1 & K2 & K3). split; [congruence|].
    destruct Hb as (? & ? & ? & _), Hb' as (? & ? & ? & _), Hf as (? & ? & ? & _), Hf' as (? & ? & ? & _), Hp as (? & ? & ? & _), Hp' as (? & ? & ? & _).
    split; [eapply HQ; [..|exact F1|exact F1']; assumption|]. split; [eapply HQ; [..|exact F2|exact F2']; assumption|].
    destruct m; try (eapply HQ; [..|exact F3|exact F3']; assumption). eapply (Hn eq_refl); [..|exact F3|exact F3']; assumption. }
  destruct m; try (now apply blend_px_rel). now apply normal_px_rel.
Qed.
End Good.

(** ** The formulas *)
Lemma rounded_mono n n' q q' : n <= n' -> rounded n 255 q -> rounded n' 255 q' -> q <= q'.
Proof. unfold rounded. lia. Qed.
Lemma rounded_step n n' d q q' : n <= n' <= n + 255 * d -> rounded n 255 q -> rounded n' 255 q' -> q <= q' <= q + d.
Proof. unfold rounded. lia. Qed.
Lemma gentle_up m b b' s q q' : gentle m -> is_byte b -> is_byte b' -> is_byte s -> b <= b' ->
  formula m b s q -> formula m b' s q' -> Z.abs (q - q') <= b' - b.
Proof.
  intros Hm Hb Hb' Hs Hle. unfold is_byte in *. destruct m; try contradiction; cbn [formula]; try lia.
  - intros H H'. assert (q <= q' <= q + (b' - b)) by (refine (rounded_step _ _ (b' - b) _ _ _ H H'); nia); lia.
  - intros H H'. assert (q <= q' <= q + (b' - b)) by (refine (rounded_step _ _ (b' - b) _ _ _ H H'); nia); lia.
  - destruct (s <? 128) eqn:E; intros H H'; (assert (q <= q' <= q + (b' - b)) by (refine (rounded_step _ _ (b' - b) _ _ _ H H'); nia)); lia.
  - intros (t & H & ->) (t' & H' & ->). assert (t <= t' <= t + (b' - b)) by (refine (rounded_step _ _ (b' - b) _ _ _ H H'); nia). lia.
Qed.
Lemma gentle_dist m d b b' s q q' : gentle m -> is_byte b -> is_byte b' -> is_byte s -> dist d b b' ->
  formula m b s q -> formula m b' s q' -> dist d q q'.
Proof.
  unfold dist. intros Hm Hb Hb' Hs Hd H H'. destruct (Z.le_gt_cases b b').
  - pose proof (gentle_up m b b' s q q' Hm Hb Hb' Hs ltac:(lia) H H'). lia.
  - pose proof (gentle_up m b' b s q' q Hm Hb' Hb Hs ltac:(lia) H' H). lia.
Qed.
Lemma calm_dist m d b b' s s' q q' : calm m -> dist d b b' -> dist d s s' ->
  formula m b s q -> formula m b' s' q' -> dist d q q'.
Proof. unfold dist. intros Hm Hb Hs. destruct m; try contradiction; cbn [formula]; lia. Qed.

Lemma rounded_between n d q lo hi : 0 < d -> d * lo <= n <= d * hi -> rounded n d q -> lo <= q <= hi.
Proof. unfold rounded. nia. Qed.
Lemma rising_le m b b' s q q' : rising m -> is_byte b -> is_byte b' -> is_byte s -> is_byte q -> is_byte q' -> b <= b' ->
  formula m b s q -> formula m b' s q' -> q <= q'.
Proof.
  intros Hm Hb Hb' Hs Hq Hq' Hle. destruct (match m with BSoftLight => true | _ => false end) eqn:Soft.
  { destruct m; try discriminate. now apply soft_back_up. }
  unfold is_byte in *. destruct m; try contradiction; try discriminate; cbn [formula]; try lia.
  - apply rounded_mono. nia.
  - apply rounded_mono. nia.
  - destruct (b <? 128) eqn:E, (b' <? 128) eqn:E'; try lia; apply rounded_mono; nia.
  - destruct (b =? 0) eqn:E; [lia|]. destruct (b' =? 0) eqn:E'; [lia|].
    destruct (255 <=? b + s) eqn:K, (255 <=? b' + s) eqn:K'; try lia. unfold rounded. nia.
  - destruct (b =? 255) eqn:E, (b' =? 255) eqn:E'; try lia.
    destruct (b + s <=? 255) eqn:K, (b' + s <=? 255) eqn:K'; try lia. unfold rounded. nia.
  - destruct (s <? 128) eqn:E; apply rounded_mono; nia.
  - destruct (b =? 0) eqn:E, (b' =? 0) eqn:E'; try lia.
    destruct (s <=? b) eqn:K, (s <=? b') eqn:K'; try lia. unfold rounded. nia.
Qed.

Lemma rounded_ratio n n' d d' q q' : 0 < d' <= d -> 0 <= n <= n' -> 0 <= q -> rounded n d q -> rounded n' d' q' -> q <= q'.
Proof.
  unfold rounded. intros Hd Hn Hq [H _] [_ H']. destruct (Z.le_gt_cases q q') as [|L]; [assumption|exfalso].
  assert (0 < 2 * q' + 1) by nia. assert (d' * (2 * q' + 1) <= d * (2 * q - 1)) by (apply Z.mul_le_mono_nonneg; lia). lia.
Qed.
Lemma ascending_le m b b' s s' q q' : ascending m -> is_byte b -> is_byte b' -> is_byte s -> is_byte s' -> is_byte q -> is_byte q' ->
  b <= b' -> s <= s' -> formula m b s q -> formula m b' s' q' -> q <= q'.
Proof.
  intros Hm Hb Hb' Hs Hs' Hq Hq' Hle Hle'. destruct (match m with BSoftLight => true | _ => false end) eqn:Soft.
  { destruct m; try discriminate. now apply (soft_up b b' s s'). }
  unfold is_byte in *. destruct m; try contradiction; try discriminate; cbn [formula]; try lia.
  - apply rounded_mono. nia.
  - apply rounded_mono. nia.
  - destruct (b <? 128) eqn:E, (b' <? 128) eqn:E'; try lia; apply rounded_mono; nia.
  - destruct (b =? 0) eqn:E; [lia|]. destruct (b' =? 0) eqn:E'; [lia|].
    destruct (255 <=? b + s) eqn:K, (255 <=? b' + s') eqn:K'; try lia. apply rounded_ratio; lia.
  - destruct (b =? 255) eqn:E, (b' =? 255) eqn:E'; try lia.
    destruct (b + s <=? 255) eqn:K, (b' + s' <=? 255) eqn:K'; try lia. intros H H'.
    pose proof (rounded_ratio (255 * (255 - b')) (255 * (255 - b)) s' s (255 - q') (255 - q) ltac:(lia) ltac:(lia) ltac:(lia) H' H). lia.
  - destruct (s <? 128) eqn:E, (s' <? 128) eqn:E'; try lia; apply rounded_mono; nia.
Qed.

Lemma gentle_separable m : gentle m -> separable m /\ m <> BSoftLight.
Proof. now destruct m. Qed.
Lemma calm_gentle m : calm m -> gentle m.
Proof. now destruct m. Qed.
Lemma rising_separable m : rising m -> separable m.
Proof. now destruct m. Qed.
Lemma ascending_rising m : ascending m -> rising m.
Proof. now destruct m. Qed.

Lemma within_rel d p q : within d p q <-> pxrel (dist d) p q.
Proof. reflexivity. Qed.
Lemma eq_rel p : pxrel eq p p.
Proof. repeat split. Qed.

Lemma gentle_pixel m d c f back back' front o r r' : gentle m -> 0 <= d -> is_px back -> is_px back' -> is_px front -> is_byte o ->
  within d back back' -> blend_mode_to_blend_fn c m = Ok f -> f back front o = Ok r -> f back' front o = Ok r' -> within d r r'.
Proof.
  intros Hm Hd Hb Hb' Hf Ho HB Em E E'. apply within_rel. destruct (gentle_separable m Hm) as [Hs Hn].
  eapply (mode_rel (dist d) (good_dist d Hd) m eq Hs (fun K => False_ind _ (Hn K))); [intros ? ? ->; unfold dist; lia| |exact Hb|exact Hb'|exact Hf|exact Hf|exact Ho|exact HB|apply eq_rel|exact Em|exact E|exact E'].
  intros b b' s ? q q' Bb Bb' Bs _ _ _ D <-. now apply (gentle_dist m d b b' s).
Qed.
Lemma calm_pixel m d c f back back' front front' o r r' : calm m -> 0 <= d -> is_px back -> is_px back' -> is_px front -> is_px front' -> is_byte o ->
  within d back back' -> within d front front' -> blend_mode_to_blend_fn c m = Ok f -> f back front o = Ok r -> f back' front' o = Ok r' -> within d r r'.
Proof.
  intros Hm Hd Hb Hb' Hf Hf' Ho HB HF Em E E'. apply within_rel. destruct (gentle_separable m (calm_gentle m Hm)) as [Hs Hn].
  eapply (mode_rel (dist d) (good_dist d Hd) m (dist d) Hs (fun K => False_ind _ (Hn K))); [auto| |exact Hb|exact Hb'|exact Hf|exact Hf'|exact Ho|exact HB|exact HF|exact Em|exact E|exact E'].
  intros b b' s s' q q' _ _ _ _ _ _ D S. now apply (calm_dist m d b b' s s').
Qed.
Lemma soft_diagonal m : m = BSoftLight -> forall b b' q q', is_byte b -> is_byte b' -> b <= b' -> formula m b b q -> formula m b' b' q' -> q <= q'.
Proof. intros -> b b' q q' Hb Hb' H. now apply (soft_up b b' b b'). Qed.
Lemma rising_pixel m c f back back' front o r r' : rising m -> is_px back -> is_px back' -> is_px front -> is_byte o ->
  lighter back back' -> blend_mode_to_blend_fn c m = Ok f -> f back front o = Ok r -> f back' front o = Ok r' -> lighter r r'.
Proof.
  intros Hm Hb Hb' Hf Ho HB Em E E'.
  refine (mode_rel Z.le good_le m eq (rising_separable m Hm) (soft_diagonal m) _ _ c f back back' front front o r r' Hb Hb' Hf Hf Ho HB (eq_rel front) Em E E'); [intros ? ? ->; lia|].
  intros b b' s ? q q' Bb Bb' Bs _ Bq Bq' D <-. now apply (rising_le m b b' s).
Qed.
Lemma ascending_pixel m c f back back' front front' o r r' : ascending m -> is_px back -> is_px back' -> is_px front -> is_px front' -> is_byte o ->
  lighter back back' -> lighter front front' -> blend_mode_to_blend_fn c m = Ok f -> f back front o = Ok r -> f back' front' o = Ok r' -> lighter r r'.
Proof.
  intros Hm Hb Hb' Hf Hf' Ho HB HF Em E E'.
  refine (mode_rel Z.le good_le m Z.le (rising_separable m (ascending_rising m Hm)) (soft_diagonal m) _ _ c f back back' front front' o r r' Hb Hb' Hf Hf' Ho HB HF Em E E'); [auto|].
  intros b b' s s' q q' Bb Bb' Bs Bs' Bq Bq' D S. now apply (ascending_le m b b' s s').
Qed.

(** ** Frames *)
Lemma Forall2_weaken {A B} (P Q : A -> B -> Prop) l l' : (forall a b, P a b -> Q a b) -> Forall2 P l l' -> Forall2 Q l l'.
Proof. intros H HF. induction HF; constructor; auto. Qed.
Section Frames.
Context (c : cfg) (i i' : bytes) (s s' : ase_file).
Context (Hc : cfg_ok c) (Hi : is_bytes i) (Ha : addressable c i) (Hl : load c i = Ok s).
Context (Hi' : is_bytes i') (Ha' : addressable c i') (Hl' : load c i' = Ok s').
Context (inflate : inflater) (Hinf : inflate_ok inflate) (sel sel' : layer_selection).

Definition steps (R : px -> px -> Prop) (cel cel' : frame_cel) : Prop :=
  fc_origin cel' = fc_origin cel /\ fc_size cel' = fc_size cel /\
  match drawn s sel cel, drawn s' sel' cel' with
  | Some l, Some l' =>
      ly_blend_mode l' = ly_blend_mode l /\ ly_opacity l' = ly_opacity l /\
      forall image image' x y p q f back back' r r', cel_image inflate s cel image -> cel_image inflate s' cel' image' ->
        pixel (fst (fc_size cel)) image x y = Some p -> pixel (fst (fc_size cel)) image' x y = Some q ->
        is_px p -> is_px q -> is_byte (ly_opacity l) -> is_px back -> is_px back' -> R back back' ->
        blend_mode_to_blend_fn c (ly_blend_mode l) = Ok f -> f back p (ly_opacity l) = Ok r -> f back' q (ly_opacity l) = Ok r' -> R r r'
  | None, None => True
  | _, _ => False
  end.

Lemma blended_px m f back front o r : is_px back -> is_px front -> is_byte o -> blend_mode_to_blend_fn c m = Ok f -> f back front o = Ok r -> is_px r.
Proof. intros Hb Hf Ho Em E. pose proof (mode_fn c m f back front o Hb Hf Ho Em) as H. rewrite E in H. exact H. Qed.

Lemma composed_rel R x y : forall cels cels', Forall2 (steps R) cels cels' -> forall back back' p p', is_px back -> is_px back' -> R back back' ->
  composed c inflate s sel x y cels back p -> composed c inflate s' sel' x y cels' back' p' -> R p p'.
Proof.
  induction 1 as [|cel cel' cels cels' (Eo & Ez & HD) HF IH]; intros back back' p p' Hb Hb' HR Hp Hp'.
  { inversion Hp; inversion Hp'; subst. exact HR. }
  assert (Ecov : covers cel' x y = covers cel x y) by (unfold covers; now rewrite Eo, Ez).
  inversion Hp as [|? ? ? ? Sk C|? ? ? l image front f mid ? Dr Cv Im Px Em E C]; inversion Hp' as [|? ? ? ? Sk' C'|? ? ? l' image' front' f' mid' ? Dr' Cv' Im' Px' Em' E' C']; subst.
  - exact (IH _ _ _ _ Hb Hb' HR C C').
  - rewrite Dr' in HD. destruct (drawn s sel cel) as [l|] eqn:D; [|contradiction]. destruct Sk as [K|K]; [discriminate|congruence].
  - rewrite Dr in HD. destruct (drawn s' sel' cel') as [l'|] eqn:D; [|contradiction]. destruct Sk' as [K|K]; [discriminate|congruence].
  - rewrite Dr, Dr' in HD. destruct HD as (Emo & Eop & HD). rewrite Emo in Em'. assert (f' = f) as -> by congruence.
    rewrite Eop in E'. rewrite Eo, Ez in Px'.
    assert (Hop : is_byte (ly_opacity l)) by (eapply (layer_opacity c i s); try eassumption; eapply drawn_layer; eassumption).
    assert (Hf : is_px front) by (eapply pixel_px; [|exact Px]; eapply (cel_image_bytes c i s); eassumption).
    assert (Hf' : is_px front') by (eapply pixel_px; [|exact Px']; eapply (cel_image_bytes c i' s'); eassumption).
    apply (IH mid mid' p p'); try assumption.
    + exact (blended_px _ _ _ _ _ _ Hb Hf Hop Em E).
    + exact (blended_px _ _ _ _ _ _ Hb' Hf' Hop Em E').
    + exact (HD _ _ _ _ _ _ _ _ _ _ _ Im Im' Px Px' Hf Hf' Hop Hb Hb' HR Em E E').
Qed.

Lemma frames_rel R k k' sf sf' t t' r r' : canvas_width s' = canvas_width s -> canvas_height s' = canvas_height s ->
  sprite_fits c s -> sprite_fits c s' -> nth_error (api_frames s) k = Some sf -> nth_error (api_frames s') k' = Some sf' ->
  Forall2 (steps R) (sf_cels sf) (sf_cels sf') -> is_bytes t -> is_bytes t' -> canvas_rel s R t t' ->
  render_frame c inflate s (Z.of_nat k) t sel = Ok r -> render_frame c inflate s' (Z.of_nat k') t' sel' = Ok r' ->
  canvas_rel s R r r'.
Proof.
  intros Ew Eh Hfit Hfit' Hk Hk' HF Ht Ht' HR Hr Hr' x y p q Hx Hy Hp Hq.
  destruct (render_composes c i s Hc Hi Ha Hl inflate Hinf Hfit sel k sf t r Hk Ht Hr x y Hx Hy) as (back & p0 & A1 & A2 & A3).
  destruct (render_composes c i' s' Hc Hi' Ha' Hl' inflate Hinf Hfit' sel' k' sf' t' r' Hk' Ht' Hr' x y ltac:(lia) ltac:(lia)) as (back' & q0 & B1 & B2 & B3).
  rewrite Ew in B1, B2. assert (p0 = p) as -> by congruence. assert (q0 = q) as -> by congruence.
  eapply (composed_rel R x y _ _ HF back back'); [eapply pixel_px; [exact Ht|exact A1]|eapply pixel_px; [exact Ht'|exact B1]| |exact A3|exact B3].
  exact (HR x y back back' Hx Hy A1 B1).
Qed.

Lemma frames_resemble d k k' sf sf' t t' r r' : 0 <= d -> canvas_width s' = canvas_width s -> canvas_height s' = canvas_height s ->
  sprite_fits c s -> sprite_fits c s' -> nth_error (api_frames s) k = Some sf -> nth_error (api_frames s') k' = Some sf' ->
  Forall2 (resembles d inflate s s' sel sel') (sf_cels sf) (sf_cels sf') -> is_bytes t -> is_bytes t' -> canvas_rel s (within d) t t' ->
  render_frame c inflate s (Z.of_nat k) t sel = Ok r -> render_frame c inflate s' (Z.of_nat k') t' sel' = Ok r' ->
  canvas_rel s (within d) r r'.
Proof.
  intros Hd Ew Eh Hfit Hfit' Hk Hk' HF. apply frames_rel with (sf := sf) (sf' := sf'); try assumption.
  revert HF. apply Forall2_weaken. intros cel cel' (Eo & Ez & HD). split; [exact Eo|]. split; [exact Ez|].
  destruct (drawn s sel cel) as [l|], (drawn s' sel' cel') as [l'|]; try contradiction; [|exact I].
  destruct HD as (Em & Eop & HD). split; [exact Em|]. split; [exact Eop|].
  intros image image' x y p q f back back' r0 r0' Im Im' Px Px' Hp Hq Ho Hb Hb' HR Ef E E'.
  destruct (HD image image' Im Im') as [(-> & G)|(G & Hw)].
  - assert (q = p) as -> by congruence. exact (gentle_pixel _ d c f back back' p _ r0 r0' G Hd Hb Hb' Hp Ho HR Ef E E').
  - exact (calm_pixel _ d c f back back' p q _ r0 r0' G Hd Hb Hb' Hp Hq Ho HR (Hw x y p q Px Px') Ef E E').
Qed.
Lemma frames_outshone k k' sf sf' t t' r r' : canvas_width s' = canvas_width s -> canvas_height s' = canvas_height s ->
  sprite_fits c s -> sprite_fits c s' -> nth_error (api_frames s) k = Some sf -> nth_error (api_frames s') k' = Some sf' ->
  Forall2 (outshone inflate s s' sel sel') (sf_cels sf) (sf_cels sf') -> is_bytes t -> is_bytes t' -> canvas_rel s lighter t t' ->
  render_frame c inflate s (Z.of_nat k) t sel = Ok r -> render_frame c inflate s' (Z.of_nat k') t' sel' = Ok r' ->
  canvas_rel s lighter r r'.
Proof.
  intros Ew Eh Hfit Hfit' Hk Hk' HF. apply frames_rel with (sf := sf) (sf' := sf'); try assumption.
  revert HF. apply Forall2_weaken. intros cel cel' (Eo & Ez & HD). split; [exact Eo|]. split; [exact Ez|].
  destruct (drawn s sel cel) as [l|], (drawn s' sel' cel') as [l'|]; try contradiction; [|exact I].
  destruct HD as (Em & Eop & HD). split; [exact Em|]. split; [exact Eop|].
  intros image image' x y p q f back back' r0 r0' Im Im' Px Px' Hp Hq Ho Hb Hb' HR Ef E E'.
  destruct (HD image image' Im Im') as [(-> & G)|(G & Hw)].
  - assert (q = p) as -> by congruence. exact (rising_pixel _ c f back back' p _ r0 r0' G Hb Hb' Hp Ho HR Ef E E').
  - exact (ascending_pixel _ c f back back' p q _ r0 r0' G Hb Hb' Hp Hq Ho HR (Hw x y p q Px Px') Ef E E').
Qed.
End Frames.

Lemma Forall2_same {A} (R : A -> A -> Prop) l : (forall a, In a l -> R a a) -> Forall2 R l l.
Proof. induction l as [|a l IH]; intro H; constructor; [apply H; now left|apply IH; intros b Hb; apply H; now right]. Qed.

Lemma canvas_stable c i s inflate sel k sf d t t' r r' : cfg_ok c -> is_bytes i -> addressable c i -> load c i = Ok s ->
  inflate_ok inflate -> sprite_fits c s -> nth_error (api_frames s) k = Some sf ->
  (forall cel l, In cel (sf_cels sf) -> drawn s sel cel = Some l -> gentle (ly_blend_mode l)) ->
  0 <= d -> is_bytes t -> is_bytes t' -> canvas_rel s (within d) t t' ->
  render_frame c inflate s (Z.of_nat k) t sel = Ok r -> render_frame c inflate s (Z.of_nat k) t' sel = Ok r' ->
  canvas_rel s (within d) r r'.
Proof.
  intros Hc Hi Ha Hl Hinf Hfit Hk HG Hd Ht Ht' HR Hr Hr'.
  refine (frames_resemble c i i s s Hc Hi Ha Hl Hi Ha Hl inflate Hinf sel sel d k k sf sf t t' r r' Hd eq_refl eq_refl Hfit Hfit Hk Hk _ Ht Ht' HR Hr Hr').
  apply Forall2_same. intros cel Hcel. split; [reflexivity|]. split; [reflexivity|].
  destruct (drawn s sel cel) as [l|] eqn:D; [|exact I]. split; [reflexivity|]. split; [reflexivity|].
  intros image image' Im Im'. left. split; [exact (cel_image_unique _ _ _ _ _ Im' Im)|exact (HG cel l Hcel D)].
Qed.
Lemma canvas_order c i s inflate sel k sf t t' r r' : cfg_ok c -> is_bytes i -> addressable c i -> load c i = Ok s ->
  inflate_ok inflate -> sprite_fits c s -> nth_error (api_frames s) k = Some sf ->
  (forall cel l, In cel (sf_cels sf) -> drawn s sel cel = Some l -> rising (ly_blend_mode l)) ->
  is_bytes t -> is_bytes t' -> canvas_rel s lighter t t' ->
  render_frame c inflate s (Z.of_nat k) t sel = Ok r -> render_frame c inflate s (Z.of_nat k) t' sel = Ok r' ->
  canvas_rel s lighter r r'.
Proof.
  intros Hc Hi Ha Hl Hinf Hfit Hk HG Ht Ht' HR Hr Hr'.
  refine (frames_rel c i i s s Hc Hi Ha Hl Hi Ha Hl inflate Hinf sel sel lighter k k sf sf t t' r r' eq_refl eq_refl Hfit Hfit Hk Hk _ Ht Ht' HR Hr Hr').
  apply Forall2_same. intros cel Hcel. split; [reflexivity|]. split; [reflexivity|].
  destruct (drawn s sel cel) as [l|] eqn:D; [|exact I]. split; [reflexivity|]. split; [reflexivity|].
  intros image image' x y p q f back back' r0 r0' Im Im' Px Px' Hp Hq Ho Hb Hb' HRb Ef E E'.
  rewrite (cel_image_unique _ _ _ _ _ Im' Im) in Px'. assert (q = p) as -> by congruence.
  exact (rising_pixel _ c f back back' p _ r0 r0' (HG cel l Hcel D) Hb Hb' Hp Ho HRb Ef E E').
Qed.
