(** The blend properties (C43-C50). *)
From Verif.Model Require Import Blend.
From Verif.Spec Require Import Bytes BlendSpec.
From Verif.Proofs Require Import SoftLight BlendFacts.
From Coq Require Import ZifyBool.

Local Ltac Zify.zify_post_hook ::= Z.div_mod_to_equations.

(** ** C43 *)
Lemma mul8_nearest c a b : is_byte a -> is_byte b ->
  exists q, mul8 c a b = Ok q /\ is_byte q /\ rounded (a * b) 255 q.
Proof.
  intros Ha Hb. rewrite mul8_eq by assumption. eexists. split; [reflexivity|]. pose proof (prod_byte _ _ Ha Hb).
  split; [now apply div255_byte|now apply div255_rounded].
Qed.
Lemma blend8_nearest c b s o : is_byte b -> is_byte s -> is_byte o ->
  exists q, blend8 c b s o = Ok q /\ between b s q /\
    (rounded ((s - b) * o) 255 (q - b) <-> ~ (s < b /\ ((b - s) * o) mod 255 = 128)) /\
    2 * Z.abs (255 * (q - b) - (s - b) * o) <= 256.
Proof.
  intros Hb Hs Ho. destruct (blend8_eq c b s o Hb Hs Ho) as [-> B]. eexists. split; [reflexivity|]. split; [exact B|].
  replace (b + div255 ((s - b) * o) - b) with (div255 ((s - b) * o)) by lia.
  assert (Hr : - 65025 <= (s - b) * o <= 65025) by (unfold is_byte in *; nia).
  pose proof (div255_error _ Hr) as He. split; [|lia].
  replace ((b - s) * o) with (- ((s - b) * o)) by ring.
  assert (Hn : (s - b) * o < 0 -> s < b) by (unfold is_byte in *; nia).
  assert (Hp : s < b -> (s - b) * o <= 0) by (unfold is_byte in *; nia).
  set (n := (s - b) * o) in *. clearbody n. clear B. unfold rounded, div255 in *. split.
  - intros H [H1 H2]. lia.
  - intros H. assert (0 <= n \/ (- n) mod 255 <> 128) by lia. clear H. lia.
Qed.

(** ** The colour every mode blends towards *)
Definition blue_front (m : blend_mode) (back front : px) : Z :=
  match m with BSoftLight => pb back | _ => pb front end.

Definition target_px (m : blend_mode) (back front p : px) : Prop :=
  is_px p /\ pa p = pa front /\ formula m (pr back) (pr front) (pr p) /\
  formula m (pg back) (pg front) (pg p) /\ formula m (pb back) (blue_front m back front) (pb p).

Lemma channelwise m (g : cfg -> Z -> Z -> bout Z) back front :
  (forall b s, is_byte b -> is_byte s -> exists q, is_byte q /\ formula m b s q /\ forall c, g c b s = Ok q) ->
  m <> BSoftLight -> is_px back -> is_px front ->
  exists p, target_px m back front p /\
    forall c o, blend_channel c (g c) back front o = normal c back p o.
Proof.
  intros H Hm (Hb1 & Hb2 & Hb3 & Hb4) (Hf1 & Hf2 & Hf3 & Hf4).
  destruct (H _ _ Hb1 Hf1) as (r & Br & Fr & Er). destruct (H _ _ Hb2 Hf2) as (gg & Bg & Fg & Eg).
  destruct (H _ _ Hb3 Hf3) as (b & Bb & Fb & Eb). exists (mkpx r gg b (pa front)). split.
  - split; [split; [|split; [|split]]; assumption|]. split; [reflexivity|]. split; [exact Fr|]. split; [exact Fg|].
    destruct m; try exact Fb. congruence.
  - intros c o. unfold blend_channel. rewrite Er. cbn [bind]. rewrite Eg. cbn [bind]. rewrite Eb. reflexivity.
Qed.

Lemma simple_ch m (g : Z -> Z -> Z) (h : cfg -> Z -> Z -> bout Z) :
  (forall b s, is_byte b -> is_byte s -> formula m b s (g b s) /\ is_byte (g b s)) ->
  (forall c b s, is_byte b -> is_byte s -> h c b s = Ok (g b s)) ->
  forall b s, is_byte b -> is_byte s -> exists q, is_byte q /\ formula m b s q /\ forall c, h c b s = Ok q.
Proof. intros H1 H2 b s Hb Hs. exists (g b s). destruct (H1 b s Hb Hs). auto. Qed.

Lemma min_byte x : 0 <= x -> is_byte (Z.min x 255).
Proof. unfold is_byte. lia. Qed.
Lemma max_byte x : x < 256 -> is_byte (Z.max x 0).
Proof. unfold is_byte. lia. Qed.

Lemma modes m back front : separable m -> m <> BNormal -> is_px back -> is_px front ->
  exists p, target_px m back front p /\
    forall c, exists f, blend_mode_to_blend_fn c m = Ok (blender c f) /\
      forall o, f back front o = normal c back p o.
Proof.
  intros Hs Hn Hb Hf.
  assert (L : forall (g : cfg -> Z -> Z -> bout Z), m <> BSoftLight ->
    (forall c, blend_mode_to_blend_fn c m = Ok (blender c (blend_channel c (g c)))) ->
    (forall b s, is_byte b -> is_byte s -> exists q, is_byte q /\ formula m b s q /\ forall c, g c b s = Ok q) ->
    exists p, target_px m back front p /\
    forall c, exists f, blend_mode_to_blend_fn c m = Ok (blender c f) /\
      forall o, f back front o = normal c back p o).
  { intros g Hns Hm Hg. destruct (channelwise m g back front Hg Hns Hb Hf) as (p & Hp & He). exists p. split; [exact Hp|].
    intro c. exists (blend_channel c (g c)). split; [apply Hm|]. intro o. apply He. }
  destruct m; try contradiction.
  - apply (L blend_multiply); [congruence|reflexivity|]. exact multiply_ch.
  - apply (L blend_screen); [congruence|reflexivity|]. exact screen_ch.
  - apply (L blend_overlay); [congruence|reflexivity|]. intros b s Bb Bs. destruct (hard_light_ch s b Bs Bb) as (q & Hq & Hr & He).
    exists q. split; [exact Hq|]. split; [|exact He]. cbn [formula].
    replace (2 * b * s) with (2 * s * b) by ring. now replace (2 * (255 - b) * (255 - s)) with (2 * (255 - s) * (255 - b)) by ring.
  - apply (L (fun _ => blend_darken)); [congruence|reflexivity|]. apply (simple_ch BDarken Z.min).
    + intros b s Bb Bs. split; [reflexivity|unfold is_byte in *; lia].
    + intros _ b s Bb Bs. unfold blend_darken. f_equal. apply as_u8_id. unfold is_byte in *; lia.
  - apply (L (fun _ => blend_lighten)); [congruence|reflexivity|]. apply (simple_ch BLighten Z.max).
    + intros b s Bb Bs. split; [reflexivity|unfold is_byte in *; lia].
    + intros _ b s Bb Bs. unfold blend_lighten. f_equal. apply as_u8_id. unfold is_byte in *; lia.
  - apply (L blend_color_dodge); [congruence|reflexivity|]. exact dodge_ch.
  - apply (L blend_color_burn); [congruence|reflexivity|]. exact burn_ch.
  - apply (L blend_hard_light); [congruence|reflexivity|]. exact hard_light_ch.
  - (* soft light *)
    clear L. destruct Hb as (Hb1 & Hb2 & Hb3 & Hb4), Hf as (Hf1 & Hf2 & Hf3 & Hf4).
    destruct (soft_light_ok _ _ Hb1 Hf1) as [B1 F1]. destruct (soft_light_ok _ _ Hb2 Hf2) as [B2 F2].
    destruct (soft_light_ok _ _ Hb3 Hb3) as [B3 F3].
    exists (mkpx (blend_soft_light (pr back) (pr front)) (blend_soft_light (pg back) (pg front))
                 (blend_soft_light (pb back) (pb back)) (pa front)). split.
    + split; [split; [|split; [|split]]; assumption|]. split; [reflexivity|]. split; [exact F1|]. split; [exact F2|exact F3].
    + intro c. exists (soft_light_baseline c). split; [reflexivity|]. intro o. unfold soft_light_baseline. cbv zeta.
      rewrite px_from_i32_eq by assumption. reflexivity.
  - apply (L blend_difference); [congruence|reflexivity|]. apply (simple_ch BDifference (fun b s => Z.abs (b - s))).
    + intros b s Bb Bs. split; [reflexivity|unfold is_byte in *; lia].
    + intros c b s Bb Bs. unfold blend_difference. rewrite i32c_id by (unfold is_byte in *; lia). cbn [bind]. f_equal.
      apply as_u8_id. unfold is_byte in *; lia.
  - apply (L blend_exclusion); [congruence|reflexivity|]. intros b s Bb Bs. destruct (multiply_ch b s Bb Bs) as (t & Ht & Hr & He).
    pose proof (mul_small _ _ _ Bb Bs Hr) as Hm.
    assert (Hx : 2 * t <= b + s) by lia. assert (Hy : b + s - 2 * t <= 255) by lia.
    exists (b + s - 2 * t). unfold is_byte in *. split; [lia|]. split; [exists t; split; [exact Hr|reflexivity]|].
    intro c. unfold blend_exclusion. unfold blend_multiply in He. rewrite He. cbn [bind]. rewrite i32c_id by lia. cbn [bind].
    rewrite i32c_id by lia. cbn [bind]. rewrite i32c_id by lia. cbn [bind]. f_equal. apply as_u8_id. unfold is_byte. lia.
  - (* addition *)
    clear L. destruct Hb as (Hb1 & Hb2 & Hb3 & Hb4), Hf as (Hf1 & Hf2 & Hf3 & Hf4).
    exists (mkpx (Z.min (pr back + pr front) 255) (Z.min (pg back + pg front) 255) (Z.min (pb back + pb front) 255) (pa front)).
    assert (G : forall x y, is_byte x -> is_byte y -> is_byte (Z.min (x + y) 255)) by (unfold is_byte; lia). split.
    + split; [split; [|split; [|split]]; cbn [pr pg pb pa mkpx]; auto|]. split; [reflexivity|].
      split; [|split]; cbn [formula pr pg pb mkpx blue_front]; apply Z.min_comm.
    + intro c. exists (addition_baseline c). split; [reflexivity|]. intro o. unfold addition_baseline.
      rewrite !i32c_id by (unfold is_byte in *; lia). cbn [bind]. rewrite px_from_i32_eq by auto. reflexivity.
  - (* subtract *)
    clear L. destruct Hb as (Hb1 & Hb2 & Hb3 & Hb4), Hf as (Hf1 & Hf2 & Hf3 & Hf4).
    exists (mkpx (Z.max (pr back - pr front) 0) (Z.max (pg back - pg front) 0) (Z.max (pb back - pb front) 0) (pa front)).
    assert (G : forall x y, is_byte x -> is_byte y -> is_byte (Z.max (x - y) 0)) by (unfold is_byte; lia). split.
    + split; [split; [|split; [|split]]; cbn [pr pg pb pa mkpx]; auto|]. split; [reflexivity|].
      split; [|split]; cbn [formula pr pg pb mkpx blue_front]; apply Z.max_comm.
    + intro c. exists (subtract_baseline c). split; [reflexivity|]. intro o. unfold subtract_baseline.
      rewrite !i32c_id by (unfold is_byte in *; lia). cbn [bind]. rewrite px_from_i32_eq by auto. reflexivity.
  - apply (L blend_divide); [congruence|reflexivity|]. exact divide_ch.
Qed.

(** ** The composition around a mode *)
Definition blend_px (back front p : px) (o : Z) : px :=
  if pa back =? 0 then normal_px back front o
  else merge_px (merge_px (normal_px back front o) (normal_px back p o) (pa back)) (normal_px back p o)
                (div255 (pa back * div255 (pa front * o))).

Lemma blend_px_byte back front p o : is_px back -> is_px front -> is_px p -> is_byte o -> is_px (blend_px back front p o).
Proof.
  intros Hb Hf Hp Ho. unfold blend_px. destruct (_ =? 0); [now apply normal_px_byte|].
  assert (is_byte (pa back)) by apply Hb. assert (is_byte (div255 (pa back * div255 (pa front * o)))).
  { apply div255_byte, prod_byte; [assumption|now apply fa_byte]. }
  repeat first [apply merge_px_byte | apply normal_px_byte]; assumption.
Qed.

Lemma blender_eq c f back front p o : is_px back -> is_px front -> is_px p -> is_byte o ->
  (pa back <> 0 -> f back front o = normal c back p o) -> blender c f back front o = Ok (blend_px back front p o).
Proof.
  intros Hb Hf Hp Ho E. unfold blender, blend_px. destruct (Z.eqb_spec (pa back) 0) as [Hz|Hz]; cbn [negb].
  - now apply normal_eq.
  - assert (Ba : is_byte (pa back)) by apply Hb. assert (Bf : is_byte (pa front)) by apply Hf.
    rewrite (E Hz), !normal_eq by assumption. cbn [bind].
    pose proof (normal_px_byte _ _ _ Hb Hf Ho) as H1. pose proof (normal_px_byte _ _ _ Hb Hp Ho) as H2.
    rewrite (merge_eq _ _ _ _ H1 H2 Ba). cbn [bind]. rewrite (mul8_eq _ _ _ Bf Ho). cbn [bind].
    pose proof (fa_byte _ _ Hf Ho) as H3. rewrite (mul8_eq _ _ _ Ba H3). cbn [bind].
    apply merge_eq; [now apply merge_px_byte|assumption|]. now apply div255_byte, prod_byte.
Qed.

(** Every separable mode, as one function. *)
Lemma mode_eq m back front : separable m -> is_px back -> is_px front ->
  exists p, target_px m back front p /\
    forall c, exists f, blend_mode_to_blend_fn c m = Ok f /\
      forall o, is_byte o -> f back front o = Ok (match m with BNormal => normal_px back front o | _ => blend_px back front p o end).
Proof.
  intros Hs Hb Hf. destruct (match m with BNormal => true | _ => false end) eqn:E.
  - destruct m; try discriminate. exists front. split; [repeat split; try apply Hf|]. intro c. exists (normal c). split; [reflexivity|].
    intros o Ho. now apply normal_eq.
  - assert (Hn : m <> BNormal) by (intros ->; discriminate). destruct (modes m back front Hs Hn Hb Hf) as (p & Hp & H).
    exists p. split; [exact Hp|]. intro c. destruct (H c) as (f & Ef & Ff). exists (blender c f). split; [exact Ef|].
    intros o Ho. rewrite (blender_eq c f back front p o Hb Hf (proj1 Hp) Ho (fun _ => Ff o)). now destruct m.
Qed.

(** ** C44 *)
Lemma no_panic m back front o : separable m -> is_px back -> is_px front -> is_byte o ->
  exists r, is_px r /\ forall c, exists f, blend_mode_to_blend_fn c m = Ok f /\ f back front o = Ok r.
Proof.
  intros Hs Hb Hf Ho. destruct (mode_eq m back front Hs Hb Hf) as (p & Hp & H).
  eexists. split; [|intro c; destruct (H c) as (f & E & F); exists f; split; [exact E|apply F, Ho]].
  destruct m; try (apply blend_px_byte; try assumption; apply Hp). now apply normal_px_byte.
Qed.

Lemma unknown_mode c w : blend_mode_to_blend_fn c (BUnknown w) = Panic PExplicit.
Proof. reflexivity. Qed.

(** ** C45 *)
Lemma px_eta p : p = mkpx (pr p) (pg p) (pb p) (pa p).
Proof. now destruct p. Qed.
Lemma mul_255 x : is_byte x -> div255 (x * 255) = x.
Proof. unfold is_byte, div255. lia. Qed.
Lemma mul_0 x : div255 (x * 0) = 0.
Proof. rewrite Z.mul_0_r. reflexivity. Qed.

Lemma over_full ba bk ft : is_byte ba -> over_alpha ba 255 = 255 /\ over_channel bk ft 255 255 = ft.
Proof.
  intro H. unfold over_alpha, over_channel. rewrite mul_255 by exact H. split; [lia|].
  rewrite Z.quot_mul by lia. lia.
Qed.

Lemma normal_px_replaces back front : is_px back -> pa front = 255 -> normal_px back front 255 = front.
Proof.
  intros (H1 & H2 & H3 & H4) E. unfold normal_px. rewrite E, (mul_255 255) by (unfold is_byte; lia).
  destruct (Z.eqb_spec (pa back) 0); [rewrite (px_eta front) at 4; now rewrite E|].
  destruct (Z.eqb_spec 255 0); [lia|]. cbv zeta. rewrite !(proj1 (over_full _ 0 0 H4)).
  rewrite !(proj2 (over_full _ _ _ H4)). rewrite (px_eta front) at 4. now rewrite E.
Qed.
Lemma normal_px_opacity_0 back front : is_px back -> pa back <> 0 -> normal_px back front 0 = back.
Proof.
  intros (H1 & H2 & H3 & H4) E. unfold normal_px. rewrite mul_0.
  destruct (Z.eqb_spec (pa back) 0); [lia|]. destruct (_ =? 0); [reflexivity|]. cbv zeta.
  unfold over_alpha, over_channel. rewrite mul_0, !Z.mul_0_r, Z.quot_0_l by lia. rewrite !Z.add_0_r, Z.sub_0_r, Z.add_0_l.
  symmetry. apply px_eta.
Qed.
Lemma normal_px_transparent back front o : pa back <> 0 -> pa front = 0 -> normal_px back front o = back.
Proof.
  intros E F. unfold normal_px. destruct (Z.eqb_spec (pa back) 0); [lia|]. rewrite F. reflexivity.
Qed.

Lemma normal_laws c back front o : is_px back -> is_px front -> is_byte o ->
  exists r, normal c back front o = Ok r /\ is_px r /\
    (pa front = 255 -> o = 255 -> r = front) /\
    (pa back <> 0 -> pa front = 0 -> r = back) /\
    (pa back <> 0 -> o = 0 -> r = back) /\
    (pa back = 0 -> pr r = pr front /\ pg r = pg front /\ pb r = pb front /\ rounded (pa front * o) 255 (pa r)) /\
    pa back <= pa r /\
    (pa back <> 0 -> between (pr back) (pr front) (pr r) /\ between (pg back) (pg front) (pg r) /\
                     between (pb back) (pb front) (pb r)).
Proof.
  intros Hb Hf Ho. exists (normal_px back front o). split; [now apply normal_eq|]. split; [now apply normal_px_byte|].
  split; [intros E ->; now apply normal_px_replaces|]. split; [now apply normal_px_transparent|].
  split; [intros E ->; now apply normal_px_opacity_0|].
  pose proof (fa_byte _ _ Hf Ho) as Hfa. assert (Ba : is_byte (pa back)) by apply Hb.
  pose proof (over_alpha_bounds _ _ Ba Hfa) as Hov.
  unfold normal_px. split; [|split].
  - intros ->. cbn. split; [reflexivity|]. split; [reflexivity|]. split; [reflexivity|]. apply div255_rounded, prod_byte; [apply Hf|exact Ho].
  - destruct (Z.eqb_spec (pa back) 0) as [E|E]; [unfold is_byte in *; cbn [pa mkpx]; lia|].
    destruct (_ =? 0); [lia|]. cbn [pa mkpx]. lia.
  - intro Hz. destruct (Z.eqb_spec (pa back) 0) as [E|E]; [lia|].
    destruct (_ =? 0); [unfold between; lia|]. cbn [pr pg pb mkpx]. unfold is_byte in *.
    split; [|split]; apply over_channel_between; lia.
Qed.

(** How exact: the resulting alpha and channels up to rounding. *)
Lemma normal_value c back front o : is_px back -> is_px front -> is_byte o -> pa back <> 0 -> pa front <> 0 ->
  exists r fa, normal c back front o = Ok r /\ rounded (pa front * o) 255 fa /\
    2 * Z.abs (255 * pa r - (255 * fa + 255 * pa back - fa * pa back)) <= 255 /\
    pr r = pr back + Z.quot ((pr front - pr back) * fa) (pa r) /\
    pg r = pg back + Z.quot ((pg front - pg back) * fa) (pa r) /\
    pb r = pb back + Z.quot ((pb front - pb back) * fa) (pa r).
Proof.
  intros Hb Hf Ho E E'. exists (normal_px back front o), (div255 (pa front * o)). split; [now apply normal_eq|].
  split; [apply div255_rounded, prod_byte; [apply Hf|exact Ho]|].
  unfold normal_px. destruct (Z.eqb_spec (pa back) 0); [lia|]. destruct (Z.eqb_spec (pa front) 0); [lia|]. cbn [pr pg pb pa mkpx].
  split; [|repeat split].
  pose proof (div255_rounded _ (prod_byte _ _ (proj2 (proj2 (proj2 Hb))) (fa_byte _ _ Hf Ho))) as R. unfold rounded in R.
  unfold over_alpha. rewrite (Z.mul_comm _ (pa back)). lia.
Qed.

(** ** Laws of the composition *)
Lemma normal_px_alpha back p q o : pa p = pa q -> pa (normal_px back p o) = pa (normal_px back q o).
Proof. intro E. unfold normal_px. rewrite E. destruct (_ =? 0); [reflexivity|]. destruct (_ =? 0); reflexivity. Qed.
Lemma normal_px_alpha_ge back p o : is_px back -> is_px p -> is_byte o -> pa back <= pa (normal_px back p o).
Proof. intros Hb Hp Ho. destruct (normal_laws {| debug := true; usize_bits := 64 |} _ _ _ Hb Hp Ho) as (r & E & _ & _ & _ & _ & _ & H & _).
  rewrite normal_eq in E by assumption. injection E as <-. exact H. Qed.

Lemma merge_px_same_alpha p q o : pa p = pa q -> pa p <> 0 ->
  merge_px p q o = mkpx (mix (pr p) (pr q) o) (mix (pg p) (pg q) o) (mix (pb p) (pb q) o) (pa p).
Proof.
  intros E Hz. unfold merge_px. rewrite <- E, mix_same. destruct (Z.eqb_spec (pa p) 0); [lia|]. reflexivity.
Qed.
Lemma merge_px_same p o : pa p <> 0 -> merge_px p p o = p.
Proof. intro H. rewrite merge_px_same_alpha by (reflexivity || exact H). rewrite !mix_same. symmetry. apply px_eta. Qed.

Lemma blend_px_alpha back front p o : is_px back -> is_px front -> is_px p -> is_byte o -> pa p = pa front ->
  pa (blend_px back front p o) = pa (normal_px back front o).
Proof.
  intros Hb Hf Hp Ho E. unfold blend_px. destruct (Z.eqb_spec (pa back) 0) as [Hz|Hz]; [reflexivity|].
  pose proof (normal_px_alpha back p front o E) as Ea. pose proof (normal_px_alpha_ge back front o Hb Hf Ho) as Hge.
  assert (Ba : is_byte (pa back)) by apply Hb. unfold is_byte in Ba.
  rewrite (merge_px_same_alpha (normal_px back front o)) by (congruence || lia).
  rewrite merge_px_same_alpha by (cbn [pa mkpx]; congruence || lia). reflexivity.
Qed.
Lemma blend_px_transparent back front p o : pa p = pa front -> pa back <> 0 -> pa front = 0 -> blend_px back front p o = back.
Proof.
  intros E Hz F. unfold blend_px. destruct (Z.eqb_spec (pa back) 0); [lia|]. rewrite !normal_px_transparent by lia.
  now rewrite !merge_px_same.
Qed.
Lemma blend_px_opacity_0 back front p : is_px back -> pa back <> 0 -> blend_px back front p 0 = back.
Proof.
  intros Hb Hz. unfold blend_px. destruct (Z.eqb_spec (pa back) 0); [lia|]. rewrite !normal_px_opacity_0 by assumption.
  now rewrite !merge_px_same.
Qed.
Lemma blend_px_over_opaque back front p o : is_px back -> is_px front -> is_px p -> is_byte o -> pa p = pa front -> pa back = 255 ->
  blend_px back front p o = normal_px back p o.
Proof.
  intros Hb Hf Hp Ho E Hz. unfold blend_px. rewrite Hz. cbn [Z.eqb].
  pose proof (normal_px_alpha back front p o (eq_sym E)) as Ea. pose proof (normal_px_alpha_ge back p o Hb Hp Ho) as Hge.
  pose proof (normal_px_byte _ _ _ Hb Hf Ho) as H1. pose proof (normal_px_byte _ _ _ Hb Hp Ho) as H2.
  rewrite (merge_px_same_alpha (normal_px back front o)) by (congruence || lia).
  destruct H1 as (A1 & A2 & A3 & A4), H2 as (B1 & B2 & B3 & B4). rewrite !mix_255 by assumption.
  rewrite Ea, <- px_eta. apply merge_px_same. lia.
Qed.

Lemma hull_mid x y z a b m r : between x y a -> between x z b -> between a b m -> between m b r -> hull x y z r.
Proof. unfold between, hull. lia. Qed.
Lemma blend_px_hull back front p o : is_px back -> is_px front -> is_px p -> is_byte o -> pa p = pa front -> pa back <> 0 ->
  let r := blend_px back front p o in
  hull (pr back) (pr front) (pr p) (pr r) /\ hull (pg back) (pg front) (pg p) (pg r) /\ hull (pb back) (pb front) (pb p) (pb r).
Proof.
  intros Hb Hf Hp Ho E Hz r. unfold r, blend_px. destruct (Z.eqb_spec (pa back) 0); [lia|].
  destruct (normal_laws {| debug := true; usize_bits := 64 |} _ _ _ Hb Hf Ho) as (n1 & E1 & X1 & _ & _ & _ & _ & G1 & K1).
  rewrite normal_eq in E1 by assumption. injection E1 as E1. rewrite E1 in *. specialize (K1 Hz).
  destruct (normal_laws {| debug := true; usize_bits := 64 |} _ _ _ Hb Hp Ho) as (n2 & E2 & X2 & _ & _ & _ & _ & G2 & K2).
  rewrite normal_eq in E2 by assumption. injection E2 as E2. rewrite E2 in *. specialize (K2 Hz).
  pose proof (normal_px_alpha back front p o (eq_sym E)) as Ea. rewrite E1, E2 in Ea.
  assert (Ba : is_byte (pa back)) by apply Hb. assert (Bc : is_byte (div255 (pa back * div255 (pa front * o)))).
  { apply div255_byte, prod_byte; [assumption|now apply fa_byte]. }
  assert (Hnz : pa n1 <> 0) by (unfold is_byte in Ba; lia).
  rewrite (merge_px_same_alpha n1) by assumption. rewrite merge_px_same_alpha by assumption. cbn [pr pg pb pa mkpx].
  destruct X1 as (A1 & A2 & A3 & A4), X2 as (B1 & B2 & B3 & B4), K1 as (C1 & C2 & C3), K2 as (D1 & D2 & D3).
  assert (Gx : forall x y z a b, is_byte a -> is_byte b -> between x y a -> between x z b ->
     hull x y z (mix (mix a b (pa back)) b (div255 (pa back * div255 (pa front * o))))).
  { intros x y z a b Ha Hb' H1 H2. pose proof (mix_between _ _ _ Ha Hb' Ba) as M1.
    pose proof (mix_between _ _ _ (mix_byte _ _ _ Ha Hb' Ba) Hb' Bc) as M2. exact (hull_mid _ _ _ _ _ _ _ H1 H2 M1 M2). }
  split; [|split]; apply Gx; assumption.
Qed.

(** C46, over an opaque backdrop. *)
Lemma over_opaque m back front : separable m -> is_px back -> is_px front -> pa back = 255 ->
  exists p, is_px p /\ pa p = pa front /\
    formula m (pr back) (pr front) (pr p) /\ formula m (pg back) (pg front) (pg p) /\
    formula m (pb back) (match m with BSoftLight => pb back | _ => pb front end) (pb p) /\
    forall c, exists f, blend_mode_to_blend_fn c m = Ok f /\
      forall o, is_byte o -> f back front o = normal c back p o.
Proof.
  intros Hs Hb Hf Ha. destruct (mode_eq m back front Hs Hb Hf) as (p & (Hp & Ep & F1 & F2 & F3) & H).
  exists p. split; [exact Hp|]. split; [exact Ep|]. split; [exact F1|]. split; [exact F2|]. split; [exact F3|].
  intro c. destruct (H c) as (f & E & G). exists f. split; [exact E|]. intros o Ho. rewrite (G o Ho).
  rewrite (normal_eq c back p o Hb Hp Ho). f_equal.
  destruct m; try (now apply blend_px_over_opaque).
  cbn in F1, F2, F3. f_equal. rewrite (px_eta p), (px_eta front). now rewrite F1, F2, F3, Ep.
Qed.
Lemma opaque_on_opaque m back front : separable m -> is_px back -> is_px front -> pa back = 255 -> pa front = 255 ->
  exists p, is_px p /\ pa p = 255 /\
    formula m (pr back) (pr front) (pr p) /\ formula m (pg back) (pg front) (pg p) /\
    formula m (pb back) (match m with BSoftLight => pb back | _ => pb front end) (pb p) /\
    forall c, exists f, blend_mode_to_blend_fn c m = Ok f /\ f back front 255 = Ok p.
Proof.
  intros Hs Hb Hf Ha Hfa. destruct (over_opaque m back front Hs Hb Hf Ha) as (p & Hp & Ep & F1 & F2 & F3 & H).
  exists p. split; [exact Hp|]. split; [congruence|]. split; [exact F1|]. split; [exact F2|]. split; [exact F3|].
  intro c. destruct (H c) as (f & E & G). exists f. split; [exact E|]. rewrite G by (unfold is_byte; lia).
  rewrite normal_eq by (assumption || (unfold is_byte; lia)). f_equal. apply normal_px_replaces; congruence.
Qed.
Lemma formula_unique m b s p q : is_byte b -> is_byte s -> formula m b s p -> formula m b s q -> p = q.
Proof.
  unfold is_byte. intros Hb Hs.
  assert (R : forall n d p q, 0 < d -> rounded n d p -> rounded n d q -> p = q) by (intros; eapply rounded_unique; eassumption).
  destruct m; cbn [formula]; intros Hp Hq; try congruence; try contradiction.
  - eapply R; [|eassumption..]; lia.
  - eapply R; [|eassumption..]; lia.
  - destruct (_ <? _); (eapply R; [|eassumption..]; lia).
  - destruct (Z.eqb_spec b 0); [congruence|]. destruct (Z.leb_spec 255 (b + s)); [congruence|]. eapply R; [|eassumption..]; lia.
  - destruct (Z.eqb_spec b 255); [congruence|]. destruct (Z.leb_spec (b + s) 255); [congruence|].
    assert (255 - p = 255 - q) by (eapply R; [|eassumption..]; lia). lia.
  - destruct (_ <? _); (eapply R; [|eassumption..]; lia).
  - unfold soft_light_value in *. destruct (Z.leb_spec (2 * s) 255); [eapply R; [|eassumption..]; lia|].
    destruct (4 * b <=? 255); [eapply R; [|eassumption..]; lia|].
    destruct Hp as [P1 P2], Hq as [Q1 Q2].
    set (k := 2 * (2 * s - 255)) in *. set (e := 2 * (2 * s - 255) * b) in *.
    assert (Mono : forall x y, x <= y -> le_sqrt y k (255 * b) -> le_sqrt x k (255 * b)).
    { intros x y Hxy [Hy|Hy]; unfold le_sqrt; [left; lia|]. destruct (Z.le_gt_cases x 0); [now left|right]. nia. }
    destruct (Z.lt_trichotomy p q) as [Hlt|[->|Hlt]]; [|reflexivity|].
    + exfalso. apply P2. eapply Mono; [|exact Q1]. lia.
    + exfalso. apply Q2. eapply Mono; [|exact P1]. lia.
  - destruct Hp as (t & T & ->), Hq as (u & U & ->). assert (t = u) by (eapply R; [|eassumption..]; lia). lia.
  - destruct (Z.eqb_spec b 0); [congruence|]. destruct (Z.leb_spec s b); [congruence|]. eapply R; [|eassumption..]; lia.
Qed.

(** ** C49 *)
Lemma transparent_front m back front o : separable m -> is_px back -> is_px front -> is_byte o ->
  pa back <> 0 -> pa front = 0 ->
  forall c, exists f, blend_mode_to_blend_fn c m = Ok f /\ f back front o = Ok back.
Proof.
  intros Hs Hb Hf Ho Hz F c. destruct (mode_eq m back front Hs Hb Hf) as (p & (Hp & Ep & _) & H). destruct (H c) as (f & E & G).
  exists f. split; [exact E|]. rewrite (G o Ho). f_equal.
  destruct m; try (now apply blend_px_transparent). now apply normal_px_transparent.
Qed.
Lemma transparent_back m back front o c f : pa back = 0 -> blend_mode_to_blend_fn c m = Ok f ->
  f back front o = normal c back front o.
Proof.
  intros Hz. destruct m; cbn [blend_mode_to_blend_fn]; intro E; try discriminate; injection E as <-; try reflexivity;
    unfold multiply, screen, overlay, darken, lighten, color_dodge, color_burn, hard_light, soft_light, difference,
      exclusion, hsl_hue, hsl_saturation, hsl_color, hsl_luminosity, addition, subtract, divide, blender; now rewrite Hz.
Qed.
Lemma opacity_0 m back front : separable m -> is_px back -> is_px front -> pa back <> 0 ->
  forall c, exists f, blend_mode_to_blend_fn c m = Ok f /\ f back front 0 = Ok back.
Proof.
  intros Hs Hb Hf Hz c. destruct (mode_eq m back front Hs Hb Hf) as (p & (Hp & Ep & _) & H). destruct (H c) as (f & E & G).
  exists f. split; [exact E|]. rewrite (G 0) by (unfold is_byte; lia). f_equal.
  destruct m; try (now apply blend_px_opacity_0). now apply normal_px_opacity_0.
Qed.
Lemma same_alpha m back front o : separable m -> is_px back -> is_px front -> is_byte o ->
  forall c f r n, blend_mode_to_blend_fn c m = Ok f -> f back front o = Ok r -> normal c back front o = Ok n ->
  pa r = pa n.
Proof.
  intros Hs Hb Hf Ho c f r n Ef Er En. destruct (mode_eq m back front Hs Hb Hf) as (p & (Hp & Ep & _) & H). destruct (H c) as (f' & E & G).
  assert (f' = f) as -> by congruence. rewrite (G o Ho) in Er. injection Er as <-. rewrite normal_eq in En by assumption. injection En as <-.
  destruct m; try (now apply blend_px_alpha). reflexivity.
Qed.
Lemma in_hull m back front o : separable m -> is_px back -> is_px front -> is_byte o -> pa back <> 0 ->
  forall c f r, blend_mode_to_blend_fn c m = Ok f -> f back front o = Ok r ->
  exists p, formula m (pr back) (pr front) (pr p) /\ formula m (pg back) (pg front) (pg p) /\
    formula m (pb back) (match m with BSoftLight => pb back | _ => pb front end) (pb p) /\
    hull (pr back) (pr front) (pr p) (pr r) /\ hull (pg back) (pg front) (pg p) (pg r) /\ hull (pb back) (pb front) (pb p) (pb r).
Proof.
  intros Hs Hb Hf Ho Hz c f r Ef Er. destruct (mode_eq m back front Hs Hb Hf) as (p & (Hp & Ep & F1 & F2 & F3) & H). destruct (H c) as (f' & E & G).
  assert (f' = f) as -> by congruence. rewrite (G o Ho) in Er. injection Er as <-.
  exists p. split; [exact F1|]. split; [exact F2|]. split; [exact F3|].
  destruct m; try (now apply (blend_px_hull back front p o)).
  destruct (normal_laws c back front o Hb Hf Ho) as (n & En & _ & _ & _ & _ & _ & _ & K). rewrite normal_eq in En by assumption.
  injection En as ->. specialize (K Hz). cbn in F1, F2, F3. 
  assert (Bt : forall x y q, between x y q -> hull x y y q) by (clear; unfold between, hull; lia).
  rewrite F1, F2, F3. destruct K as (K1 & K2 & K3). split; [|split]; now apply Bt.
Qed.

(** ** C50 *)
Lemma formula_sym m b s q : symmetric_mode m -> formula m b s q -> formula m s b q.
Proof.
  destruct m; try contradiction; intros _; cbn [formula].
  - now rewrite Z.mul_comm.
  - now rewrite (Z.mul_comm (255 - b)).
  - now rewrite Z.min_comm.
  - now rewrite Z.max_comm.
  - lia.
  - intros (t & H & ->). exists t. rewrite Z.mul_comm. split; [exact H|lia].
Qed.
Lemma formula_overlay b s q : formula BOverlay b s q -> formula BHardLight s b q.
Proof.
  cbn [formula]. replace (2 * s * b) with (2 * b * s) by ring.
  now replace (2 * (255 - s) * (255 - b)) with (2 * (255 - b) * (255 - s)) by ring.
Qed.

(** Opaque pixels swapped. *)
Lemma swap_modes m m' back front : separable m -> separable m' -> m <> BSoftLight -> m' <> BSoftLight ->
  (forall b s q, formula m b s q -> formula m' s b q) ->
  is_px back -> is_px front -> pa back = 255 -> pa front = 255 ->
  forall c, exists f f' r, blend_mode_to_blend_fn c m = Ok f /\ blend_mode_to_blend_fn c m' = Ok f' /\
    f back front 255 = Ok r /\ f' front back 255 = Ok r.
Proof.
  intros Hs Hs' Hn Hn' Hm Hb Hf Ab Af c.
  destruct (opaque_on_opaque m back front Hs Hb Hf Ab Af) as (p & Hp & Ep & F1 & F2 & F3 & H).
  destruct (opaque_on_opaque m' front back Hs' Hf Hb Af Ab) as (p' & Hp' & Ep' & F1' & F2' & F3' & H').
  destruct (H c) as (f & E & G). destruct (H' c) as (f' & E' & G'). exists f, f', p.
  split; [exact E|]. split; [exact E'|]. split; [exact G|]. rewrite G'. f_equal.
  destruct Hb as (B1 & B2 & B3 & _), Hf as (C1 & C2 & C3 & _).
  rewrite (px_eta p'), (px_eta p), Ep, Ep'. f_equal.
  - exact (formula_unique m' _ _ _ _ C1 B1 F1' (Hm _ _ _ F1)).
  - exact (formula_unique m' _ _ _ _ C2 B2 F2' (Hm _ _ _ F2)).
  - apply (formula_unique m' _ _ _ _ C3 B3).
    + destruct m'; try exact F3'. congruence.
    + apply Hm. destruct m; try exact F3. congruence.
Qed.
Lemma symmetric m back front : symmetric_mode m -> is_px back -> is_px front -> pa back = 255 -> pa front = 255 ->
  forall c, exists f r, blend_mode_to_blend_fn c m = Ok f /\ f back front 255 = Ok r /\ f front back 255 = Ok r.
Proof.
  intros Hm Hb Hf Ab Af c.
  destruct (swap_modes m m back front) with (c := c) as (f & f' & r & E & E' & G & G'); try assumption;
    try (destruct m; (contradiction || exact I || congruence)).
  - intros b s q. now apply formula_sym.
  - exists f, r. assert (f' = f) as -> by congruence. auto.
Qed.
Lemma overlay_hard_light back front : is_px back -> is_px front -> pa back = 255 -> pa front = 255 ->
  forall c, exists r, overlay c back front 255 = Ok r /\ hard_light c front back 255 = Ok r.
Proof.
  intros Hb Hf Ab Af c. destruct (swap_modes BOverlay BHardLight back front I I) with (c := c) as (f & f' & r & E & E' & G & G');
    try assumption; try congruence. { exact formula_overlay. }
  exists r. cbn in E, E'. injection E as <-. injection E' as <-. auto.
Qed.

Lemma formula_neutral m n b : neutral m = Some n -> is_byte b -> formula m b n b.
Proof.
  unfold is_byte. intros E Hb. destruct m; cbn in E; try discriminate; injection E as <-; cbn [formula]; unfold rounded; try lia.
  - destruct (Z.eqb_spec b 0); [lia|]. destruct (Z.leb_spec 255 (b + 0)); lia.
  - destruct (Z.eqb_spec b 255); [lia|]. destruct (Z.leb_spec (b + 255) 255); lia.
  - exists 0. lia.
  - destruct (Z.eqb_spec b 0); [lia|]. destruct (Z.leb_spec 255 b); lia.
Qed.
Lemma normal_px_own back p o : is_px back -> pa back = 255 -> pr p = pr back -> pg p = pg back -> pb p = pb back ->
  is_px p -> is_byte o -> normal_px back p o = back.
Proof.
  intros Hb Ab E1 E2 E3 Hp Ho. pose proof (fa_byte _ _ Hp Ho) as Hfa. unfold normal_px. rewrite Ab. cbn [Z.eqb].
  destruct (_ =? 0); [reflexivity|]. unfold over_channel. rewrite E1, E2, E3, !Z.sub_diag, !Z.mul_0_l.
  pose proof (over_alpha_bounds 255 _ ltac:(unfold is_byte; lia) Hfa) as Ha.
  rewrite Z.quot_0_l by lia. rewrite !Z.add_0_r. rewrite (px_eta back) at 4. f_equal. lia.
Qed.
Lemma neutral_front m n back front o : neutral m = Some n -> is_px back -> is_px front -> is_byte o -> pa back = 255 ->
  pr front = n -> pg front = n -> pb front = n ->
  forall c, exists f, blend_mode_to_blend_fn c m = Ok f /\ f back front o = Ok back.
Proof.
  intros En Hb Hf Ho Ab E1 E2 E3 c.
  assert (Hs : separable m) by (destruct m; (discriminate || exact I)).
  destruct (over_opaque m back front Hs Hb Hf Ab) as (p & Hp & Ep & F1 & F2 & F3 & H). destruct (H c) as (f & E & G).
  exists f. split; [exact E|]. rewrite (G o Ho), normal_eq by assumption. f_equal.
  assert (Bn : is_byte n) by (rewrite <- E1; apply Hf). destruct Hb as (B1 & B2 & B3 & B4) eqn:EHb.
  assert (F3' : formula m (pb back) (pb front) (pb p)) by (destruct m; try exact F3; discriminate).
  rewrite E1 in F1. rewrite E2 in F2. rewrite E3 in F3'.
  apply normal_px_own; try assumption.
  - exact (formula_unique m _ _ _ _ B1 Bn F1 (formula_neutral m n _ En B1)).
  - exact (formula_unique m _ _ _ _ B2 Bn F2 (formula_neutral m n _ En B2)).
  - exact (formula_unique m _ _ _ _ B3 Bn F3' (formula_neutral m n _ En B3)).
Qed.

(** ** C47 *)
Lemma soft_light_blue : forall c,
  exists r, soft_light c (mkpx 100 100 100 255) (mkpx 200 200 200 255) 255 = Ok r /\ pg r = pr r /\ pb r <> pr r.
Proof. intros [d u]. exists (mkpx 134 134 87 255). destruct d; split; [vm_compute; reflexivity| |vm_compute; reflexivity|]; cbn; lia. Qed.
Lemma soft_light_fixed_front back front : is_px back -> is_px front -> pa back = 255 -> pb front = pb back ->
  exists p, is_px p /\ pa p = pa front /\
    formula BSoftLight (pr back) (pr front) (pr p) /\ formula BSoftLight (pg back) (pg front) (pg p) /\
    formula BSoftLight (pb back) (pb front) (pb p) /\
    forall c o, is_byte o -> soft_light c back front o = normal c back p o.
Proof.
  intros Hb Hf Ab E. destruct (over_opaque BSoftLight back front I Hb Hf Ab) as (p & Hp & Ep & F1 & F2 & F3 & H).
  exists p. rewrite E. do 5 (split; [assumption|]). intros c o Ho. destruct (H c) as (f & Ef & G). injection Ef as <-. now apply G.
Qed.

(** ** C48 *)
Definition hsl_alpha (a : Z) : Z := f_as_i32 (fmul (f_of_Z a) (f_of_Z 255)).
Lemma hsl_alpha_table : forallb (fun a => hsl_alpha a =? a * 255) all_bytes = true.
Proof. vm_compute. reflexivity. Qed.
Lemma hsl_alpha_eq a : is_byte a -> hsl_alpha a = a * 255.
Proof.
  intro H. pose proof hsl_alpha_table as T. rewrite forallb_forall in T. specialize (T a (in_all_bytes a H)). lia.
Qed.

Lemma hsl_shape m back front : hsl m -> exists x y z, forall c, exists g,
  blend_mode_to_blend_fn c m = Ok (blender c g) /\
  forall o, g back front o = bind (px_from_f64 c x y z (f_of_Z (pa front))) (fun f => normal c back f o).
Proof.
  destruct m; try contradiction; intros _.
  - destruct (set_saturation (f_of_Z (pr front)) (f_of_Z (pg front)) (f_of_Z (pb front))
      (saturation (f_of_Z (pr back)) (f_of_Z (pg back)) (f_of_Z (pb back)))) as [[x y] z] eqn:E1.
    destruct (set_luminocity x y z (luminosity (f_of_Z (pr back)) (f_of_Z (pg back)) (f_of_Z (pb back)))) as [[x' y'] z'] eqn:E2.
    exists x', y', z'. intro c. exists (hsl_hue_baseline c). split; [reflexivity|]. intro o. unfold hsl_hue_baseline. cbv zeta.
    now rewrite E1, E2.
  - destruct (set_saturation (f_of_Z (pr back)) (f_of_Z (pg back)) (f_of_Z (pb back))
      (saturation (f_of_Z (pr front)) (f_of_Z (pg front)) (f_of_Z (pb front)))) as [[x y] z] eqn:E1.
    destruct (set_luminocity x y z (luminosity (f_of_Z (pr back)) (f_of_Z (pg back)) (f_of_Z (pb back)))) as [[x' y'] z'] eqn:E2.
    exists x', y', z'. intro c. exists (hsl_saturation_baseline c). split; [reflexivity|]. intro o. unfold hsl_saturation_baseline. cbv zeta.
    now rewrite E1, E2.
  - destruct (set_luminocity (f_of_Z (pr front)) (f_of_Z (pg front)) (f_of_Z (pb front))
      (luminosity (f_of_Z (pr back)) (f_of_Z (pg back)) (f_of_Z (pb back)))) as [[x' y'] z'] eqn:E2.
    exists x', y', z'. intro c. exists (hsl_color_baseline c). split; [reflexivity|]. intro o. unfold hsl_color_baseline. cbv zeta.
    now rewrite E2.
  - destruct (set_luminocity (f_of_Z (pr back)) (f_of_Z (pg back)) (f_of_Z (pb back))
      (luminosity (f_of_Z (pr front)) (f_of_Z (pg front)) (f_of_Z (pb front)))) as [[x' y'] z'] eqn:E2.
    exists x', y', z'. intro c. exists (hsl_luminosity_baseline c). split; [reflexivity|]. intro o. unfold hsl_luminosity_baseline. cbv zeta.
    now rewrite E2.
Qed.

Lemma hsl_debug_panics m back front o c : hsl m -> is_px back -> is_px front -> is_byte o -> debug c = true ->
  pa back <> 0 -> 2 <= pa front ->
  exists f, blend_mode_to_blend_fn c m = Ok f /\ f back front o = Panic PDebugAssert.
Proof.
  intros Hm Hb Hf Ho Hc Hz Ha. destruct (hsl_shape m back front Hm) as (x & y & z & H). destruct (H c) as (g & E & G).
  exists (blender c g). split; [exact E|]. unfold blender. destruct (Z.eqb_spec (pa back) 0); [lia|]. cbn [negb].
  rewrite normal_eq by assumption. cbn [bind]. rewrite G. unfold px_from_f64. cbv zeta. fold (hsl_alpha (pa front)).
  rewrite hsl_alpha_eq by apply Hf. unfold px_from_i32. cbv zeta. rewrite Hc. replace (pa front * 255 <=? 255) with false by lia.
  rewrite !andb_false_r. reflexivity.
Qed.

Lemma hsl_release m back front : hsl m -> is_px back -> is_px front ->
  exists p, is_px p /\ pa p = (256 - pa front) mod 256 /\
    (forall c, debug c = false -> exists f, blend_mode_to_blend_fn c m = Ok f /\
       forall o, is_byte o -> f back front o = Ok (blend_px back front p o)) /\
    (forall c, debug c = true -> exists f, blend_mode_to_blend_fn c m = Ok f /\
       forall o, is_byte o -> f back front o = Panic PDebugAssert \/ f back front o = Ok (blend_px back front p o)).
Proof.
  intros Hm Hb Hf. destruct (hsl_shape m back front Hm) as (x & y & z & H).
  set (s v := f_as_i32 (fmul v (f_of_Z 255))).
  exists (mkpx (as_u8 (s x)) (as_u8 (s y)) (as_u8 (s z)) (as_u8 (hsl_alpha (pa front)))).
  assert (Hp : is_px (mkpx (as_u8 (s x)) (as_u8 (s y)) (as_u8 (s z)) (as_u8 (hsl_alpha (pa front))))).
  { split; [|split; [|split]]; apply as_u8_byte. }
  split; [exact Hp|]. split.
  { cbn [pa mkpx]. rewrite hsl_alpha_eq by apply Hf. unfold as_u8. clear. lia. }
  split; intros c Hc; destruct (H c) as (g & E & G); exists (blender c g); (split; [exact E|]); intros o Ho.
  - apply blender_eq; try assumption. intros _. rewrite G. unfold px_from_f64, px_from_i32. rewrite Hc. reflexivity.
  - destruct (Z.eq_dec (pa back) 0) as [Hz|Hz]; [right; apply blender_eq; (assumption || contradiction)|].
    specialize (G o). unfold px_from_f64 in G. cbv zeta in G. fold (hsl_alpha (pa front)) in G. fold (s x) (s y) (s z) in G.
    unfold px_from_i32 in G. cbv zeta in G. destruct (debug c && _) eqn:D.
    + left. unfold blender. destruct (Z.eqb_spec (pa back) 0); [lia|]. cbn [negb]. rewrite normal_eq by assumption. cbn [bind].
      rewrite G. reflexivity.
    + right. apply blender_eq; try assumption. intros _. exact G.
Qed.

Lemma hsl_outcomes m back front o : hsl m -> is_px back -> is_px front -> is_byte o ->
  exists r, is_px r /\
    (forall c, debug c = false -> exists f, blend_mode_to_blend_fn c m = Ok f /\ f back front o = Ok r) /\
    (forall c, debug c = true -> exists f, blend_mode_to_blend_fn c m = Ok f /\
       (f back front o = Panic PDebugAssert \/ f back front o = Ok r)).
Proof.
  intros Hm Hb Hf Ho. destruct (hsl_release m back front Hm Hb Hf) as (p & Hp & _ & HR & HD).
  exists (blend_px back front p o). split; [now apply blend_px_byte|]. split.
  - intros c Hc. destruct (HR c Hc) as (f & E & G). exists f. split; [exact E|]. now apply G.
  - intros c Hc. destruct (HD c Hc) as (f & E & G). exists f. split; [exact E|]. now apply G.
Qed.

Lemma normal_px_alpha_255 back q o : pa back = 255 -> is_px q -> is_byte o -> pa (normal_px back q o) = 255.
Proof.
  intros Ab Hq Ho. pose proof (fa_byte _ _ Hq Ho) as Hfa. unfold normal_px. rewrite Ab. cbn [Z.eqb]. destruct (_ =? 0); [exact Ab|].
  cbn [pa mkpx]. pose proof (over_alpha_bounds 255 _ ltac:(unfold is_byte; lia) Hfa). lia.
Qed.
Lemma hsl_wrong_alpha m back front : hsl m -> is_px back -> is_px front -> pa back = 255 ->
  exists p, is_px p /\ pa p = (256 - pa front) mod 256 /\
    forall c, debug c = false -> exists f, blend_mode_to_blend_fn c m = Ok f /\
      forall o, is_byte o -> f back front o = normal c back p o.
Proof.
  intros Hm Hb Hf Ab. destruct (hsl_release m back front Hm Hb Hf) as (p & Hp & Ep & HR & _). exists p.
  split; [exact Hp|]. split; [exact Ep|]. intros c Hc. destruct (HR c Hc) as (f & E & G). exists f. split; [exact E|].
  intros o Ho. rewrite (G o Ho), normal_eq by assumption. f_equal. unfold blend_px. rewrite Ab. cbn [Z.eqb].
  pose proof (normal_px_alpha_255 back front o Ab Hf Ho) as A1. pose proof (normal_px_alpha_255 back p o Ab Hp Ho) as A2.
  pose proof (normal_px_byte _ _ _ Hb Hf Ho) as H1. pose proof (normal_px_byte _ _ _ Hb Hp Ho) as H2.
  rewrite (merge_px_same_alpha (normal_px back front o)) by congruence.
  destruct H1 as (B1 & B2 & B3 & B4), H2 as (C1 & C2 & C3 & C4). rewrite !mix_255 by assumption.
  rewrite A1, <- A2, <- px_eta. apply merge_px_same. lia.
Qed.
Lemma hsl_transparent m back front o : hsl m -> is_px back -> is_px front -> is_byte o ->
  pa back <> 0 -> pa front = 0 ->
  forall c, debug c = false -> exists f, blend_mode_to_blend_fn c m = Ok f /\ f back front o = Ok back.
Proof.
  intros Hm Hb Hf Ho Hz F c Hc. destruct (hsl_release m back front Hm Hb Hf) as (p & Hp & Ep & HR & _).
  destruct (HR c Hc) as (f & E & G). exists f. split; [exact E|]. rewrite (G o Ho). f_equal.
  apply blend_px_transparent; [|assumption..]. rewrite Ep, F. reflexivity.
Qed.

(** Witnesses. *)
Lemma blend8_off : forall c, blend8 c 1 0 128 = Ok 1 /\ ~ rounded ((0 - 1) * 128) 255 (1 - 1).
Proof. intros [d u]. split; [destruct d; vm_compute; reflexivity|]. unfold rounded. lia. Qed.
Lemma hsl_alpha_off m : hsl m -> forall c, debug c = false ->
  exists f r, blend_mode_to_blend_fn c m = Ok f /\
    f (mkpx 200 100 50 128) (mkpx 10 20 30 255) 255 = Ok r /\ pa r = 159 /\
    normal c (mkpx 200 100 50 128) (mkpx 10 20 30 255) 255 = Ok (mkpx 10 20 30 255).
Proof.
  intros Hm [d u] Hd. cbn in Hd. subst d.
  destruct m; try contradiction; (do 2 eexists; split; [reflexivity|]; split; [vm_compute; reflexivity|split; vm_compute; reflexivity]).
Qed.
Lemma hsl_transparent_panics m : hsl m -> forall c, debug c = true ->
  exists f, blend_mode_to_blend_fn c m = Ok f /\
    f (mkpx 200 100 50 255) (mkpx 10 20 30 0) 255 = Panic PDebugAssert.
Proof.
  intros Hm [d u] Hd. cbn in Hd. subst d.
  destruct m; try contradiction; (eexists; split; [reflexivity|vm_compute; reflexivity]).
Qed.
Lemma div8_rounds c a b : 0 <= a < b -> is_byte b ->
  exists q, div8 c a b = Ok q /\ is_byte q /\ rounded (a * 255) b q.
Proof. intros. rewrite Z.mul_comm. now apply div8_eq. Qed.
