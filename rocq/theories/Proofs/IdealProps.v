(** Rounding errors of compositing. *)
From Coq Require Import QArith Qabs.
From Verif.Model Require Import Blend.
From Verif.Spec Require Import Bytes BlendSpec Composite Ideal.
From Verif.Proofs Require Import BlendFacts BlendProps CompositeProps.
Local Open Scope Z_scope.

(** A bound on a fraction is one on integers. *)
Lemma frac_lt n d k : (- (k * Zpos d) < n < k * Zpos d) -> (Qabs (n # d) < inject_Z k)%Q.
Proof. intro H. unfold Qabs, Qlt, inject_Z. cbn [Qnum Qden]. lia. Qed.
Lemma frac_le n d k : (- (k * Zpos d) <= n <= k * Zpos d) -> (Qabs (n # d) <= inject_Z k)%Q.
Proof. intro H. unfold Qabs, Qle, inject_Z. cbn [Qnum Qden]. lia. Qed.

Lemma mul_bound x y a b : - a <= x <= a -> - b <= y <= b -> - (a * b) <= x * y <= a * b.
Proof. nia. Qed.

(** [af] and [o]: alpha of the front and opacity; [sh] its share, [ar] the alpha
    of both. *)
Lemma over_bound cb cf ab af o sh ar c :
  is_byte cb -> is_byte cf -> is_byte ab -> is_byte ar ->
  -127 <= 255 * sh - af * o <= 127 ->
  -127 <= 255 * ar - (255 * (sh + ab) - sh * ab) <= 127 ->
  ar <> 0 -> c = cb + Z.quot ((cf - cb) * sh) ar ->
  - (508 * 65025) <= 65025 * (c * ar) - (cf * 255 * (af * o) + cb * (65025 * ab - af * o * ab)) <= 508 * 65025.
Proof.
  intros Hcb Hcf Hab Har H1 H2 Hz ->.
  pose proof (Z.quot_rem ((cf - cb) * sh) ar Hz) as Q. pose proof (Z.rem_bound_abs ((cf - cb) * sh) ar Hz) as R.
  set (q := Z.quot _ ar) in *. set (d := Z.rem _ ar) in *. clearbody q d.
  set (eta := 255 * sh - af * o) in *. set (eps := 255 * ar - (255 * (sh + ab) - sh * ab)) in *.
  assert (E : 65025 * ((cb + q) * ar) - (cf * 255 * (af * o) + cb * (65025 * ab - af * o * ab)) =
              eta * (255 * cf - cb * ab) + 255 * (cb * eps) - 65025 * d).
  { unfold eta, eps. replace (q * ar) with ((cf - cb) * sh - d) by lia.
    replace ((cb + q) * ar) with (cb * ar + ((cf - cb) * sh - d)) by (rewrite Q; ring). ring. }
  rewrite E. unfold is_byte in *.
  assert (B1 : - 65025 <= 255 * cf - cb * ab <= 65025) by nia.
  pose proof (mul_bound eta (255 * cf - cb * ab) 127 65025 H1 B1).
  pose proof (mul_bound cb eps 255 127 ltac:(lia) H2). lia.
Qed.

Definition over_c (cb cf ab af o : Z) : Z :=
  if ab =? 0 then cf else if af =? 0 then cb
  else over_channel cb cf (div255 (af * o)) (over_alpha ab (div255 (af * o))).
Definition over_a (ab af o : Z) : Z :=
  if ab =? 0 then div255 (af * o) else if af =? 0 then ab else over_alpha ab (div255 (af * o)).
Lemma normal_px_c back front o ch : In ch [pr; pg; pb] ->
  ch (normal_px back front o) = over_c (ch back) (ch front) (pa back) (pa front) o.
Proof.
  intros [<-|[<-|[<-|[]]]]; unfold normal_px, over_c; destruct (pa back =? 0); try reflexivity; destruct (pa front =? 0); reflexivity.
Qed.
Lemma normal_px_a back front o : pa (normal_px back front o) = over_a (pa back) (pa front) o.
Proof. unfold normal_px, over_a. destruct (pa back =? 0); try reflexivity; destruct (pa front =? 0); reflexivity. Qed.

Lemma share_bound x y : is_byte x -> is_byte y -> -127 <= 255 * div255 (x * y) - x * y <= 127.
Proof. intros Hx Hy. pose proof (div255_rounded _ (prod_byte _ _ Hx Hy)) as R. unfold rounded in R. lia. Qed.
Lemma alpha_bound ab sh : is_byte ab -> is_byte sh -> -127 <= 255 * over_alpha ab sh - (255 * (sh + ab) - sh * ab) <= 127.
Proof. intros H1 H2. pose proof (share_bound _ _ H1 H2). unfold over_alpha. lia. Qed.

Lemma over_c_bound cb cf ab af o : is_byte cb -> is_byte cf -> is_byte ab -> is_byte af -> is_byte o ->
  - (508 * 65025) <= 65025 * (over_c cb cf ab af o * over_a ab af o) -
      (cf * 255 * (af * o) + cb * (65025 * ab - af * o * ab)) <= 508 * 65025.
Proof.
  intros Hcb Hcf Hab Haf Ho. pose proof (share_bound af o Haf Ho) as S.
  assert (Hsh : is_byte (div255 (af * o))) by now apply div255_byte, prod_byte.
  unfold over_c, over_a. destruct (Z.eqb_spec ab 0) as [->|Hz].
  - pose proof (mul_bound cf (255 * div255 (af * o) - af * o) 255 127 ltac:(unfold is_byte in *; lia) S). lia.
  - destruct (Z.eqb_spec af 0) as [->|Hf]; [lia|].
    pose proof (over_alpha_bounds ab _ Hab Hsh) as B.
    apply (over_bound cb cf ab af o (div255 (af * o))); try assumption.
    + unfold is_byte in *; lia.
    + now apply alpha_bound.
    + unfold is_byte in *; lia.
    + reflexivity.
Qed.
Lemma over_a_bound ab af o : is_byte ab -> is_byte af -> is_byte o ->
  - 65025 <= 65025 * over_a ab af o - (255 * (af * o) + 65025 * ab - af * o * ab) <= 65025.
Proof.
  intros Hab Haf Ho. pose proof (share_bound af o Haf Ho) as S.
  assert (Hsh : is_byte (div255 (af * o))) by now apply div255_byte, prod_byte.
  unfold over_a. destruct (Z.eqb_spec ab 0) as [->|Hz]; [lia|]. destruct (Z.eqb_spec af 0) as [->|Hf]; [lia|].
  pose proof (alpha_bound ab _ Hab Hsh) as B. set (sh := div255 (af * o)) in *. clearbody sh.
  pose proof (mul_bound (255 * sh - af * o) (255 - ab) 127 255 S ltac:(unfold is_byte in *; lia)). lia.
Qed.

(** The two merges of [blender] *)
Lemma mix_bound x y w : is_byte x -> is_byte y -> is_byte w -> -128 <= 255 * (mix x y w - x) - (y - x) * w <= 128.
Proof.
  intros Hx Hy Hw. pose proof (proj2 (partway_iff x y w (mix x y w) Hx Hy Hw) eq_refl) as P. unfold partway, rounded in P.
  destruct (_ && _); lia.
Qed.

Lemma merge_bound n b ab af o a PN PB r sh both : is_byte n -> is_byte b -> is_byte ab -> is_byte a -> is_byte af -> is_byte o ->
  sh = div255 (af * o) -> both = div255 (ab * sh) -> r = mix (mix n b ab) b both ->
  - (508 * 65025) <= 65025 * (n * a) - PN <= 508 * 65025 ->
  - (508 * 65025) <= 65025 * (b * a) - PB <= 508 * 65025 ->
  let K := ab * (af * o) in let M := 65025 * 255 in
  let U := (255 - ab) * (M - K) in let V := ab * (M - K) + 255 * K in
  - (891 * (65025 * 65025 * 65025)) <= 65025 * 65025 * 65025 * (r * a) - (U * PN + V * PB) <= 891 * (65025 * 65025 * 65025).
Proof.
  intros Hn Hb Hab Ha Haf Ho Esh Eboth Er HN HB K M U V.
  assert (Hsh : is_byte sh) by (subst sh; now apply div255_byte, prod_byte).
  pose proof (share_bound af o Haf Ho) as S1. rewrite <- Esh in S1.
  pose proof (share_bound ab sh Hab Hsh) as S2. rewrite <- Eboth in S2.
  assert (Hboth : is_byte both) by (subst both; now apply div255_byte, prod_byte).
  pose proof (mix_bound n b ab Hn Hb Hab) as T1. pose proof (mix_byte n b ab Hn Hb Hab) as Ht.
  pose proof (mix_bound (mix n b ab) b both Ht Hb Hboth) as T2. rewrite <- Er in T2.
  set (t := mix n b ab) in *. clearbody t. clear Er.
  set (tau := 255 * (t - n) - (b - n) * ab) in *. set (tau2 := 255 * (r - t) - (b - t) * both) in *.
  set (nu := 65025 * both - K).
  assert (Hnu : - (127 * (255 + ab)) <= nu <= 127 * (255 + ab)).
  { unfold nu, K. pose proof (mul_bound (255 * sh - af * o) ab 127 ab S1 ltac:(unfold is_byte in *; lia)). lia. }
  set (EN := 65025 * (n * a) - PN) in *. set (EB := 65025 * (b * a) - PB) in *.
  assert (E : 65025 * 65025 * 65025 * (r * a) - (U * PN + V * PB) =
    U * EN + V * EB + 65025 * (a * (tau * (M - 65025 * both))) + 65025 * (a * ((b - n) * ((255 - ab) * nu))) +
    255 * 65025 * 65025 * (a * tau2)).
  { unfold EN, EB, U, V, tau, tau2, nu. unfold M. ring_simplify. ring. }
  assert (Kb : 0 <= K <= M).
  { unfold K, M. pose proof (prod_byte _ _ Haf Ho) as P. unfold is_byte in Hab. split.
    - apply Z.mul_nonneg_nonneg; lia.
    - rewrite (Z.mul_comm 65025). apply Z.mul_le_mono_nonneg; lia. }
  assert (BU : 0 <= U) by (apply Z.mul_nonneg_nonneg; unfold is_byte in Hab; lia).
  assert (BV : 0 <= V).
  { apply Z.add_nonneg_nonneg; apply Z.mul_nonneg_nonneg; unfold is_byte in Hab; lia. }
  assert (UV : U + V = 65025 * 65025) by (unfold U, V, M; ring).
  pose proof (mul_bound U EN U (508 * 65025) ltac:(lia) HN) as A1.
  pose proof (mul_bound V EB V (508 * 65025) ltac:(lia) HB) as A2.
  pose proof (mul_bound tau (M - 65025 * both) 128 M T1 ltac:(unfold M, is_byte in *; lia)) as A3.
  pose proof (mul_bound a (tau * (M - 65025 * both)) 255 (128 * M) ltac:(unfold is_byte in *; lia) A3) as A4.
  assert (A5 : - (127 * 65025) <= (255 - ab) * nu <= 127 * 65025).
  { pose proof (mul_bound (255 - ab) nu (255 - ab) _ ltac:(unfold is_byte in *; lia) Hnu).
    pose proof (Z.square_nonneg ab). clear - H H0. lia. }
  pose proof (mul_bound (b - n) _ 255 _ ltac:(unfold is_byte in *; lia) A5) as A6.
  pose proof (mul_bound a _ 255 _ ltac:(unfold is_byte in *; lia) A6) as A7.
  pose proof (mul_bound a tau2 255 128 ltac:(unfold is_byte in *; lia) T2) as A8.
  rewrite E. clear E. clearbody tau tau2 nu EN EB. unfold M in *. clear - A1 A2 A4 A7 A8 UV. lia.
Qed.

(** ** The fractions *)
Lemma unit_div z : (unit z == inject_Z z / 255)%Q.
Proof. unfold unit. rewrite Qmake_Qdiv. reflexivity. Qed.
Ltac fractions n d :=
  rewrite (Qmake_Qdiv n d), !unit_div; unfold Z.sub; repeat rewrite ?inject_Z_plus, ?inject_Z_mult, ?inject_Z_opp;
  repeat match goal with |- context [inject_Z (Zpos ?p)] => change (inject_Z (Zpos p)) with (Zpos p # 1)%Q end.
Lemma over_frac cb cf ab af o x a :
  let n := 65025 * (x * a) - (cf * 255 * (af * o) + cb * (65025 * ab - af * o * ab)) in
  (inject_Z x * unit a - ideal_over cb cf (unit ab) (unit af * unit o) == n # 16581375)%Q.
Proof.
  intro n. unfold ideal_over. unfold n. fractions (65025 * (x * a) - (cf * 255 * (af * o) + cb * (65025 * ab - af * o * ab))) 16581375%positive.
  field.
Qed.

(** The weight of the mode's colour. *)
Lemma mix_frac cb cf cm ab af o x a :
  let PN := cf * 255 * (af * o) + cb * (65025 * ab - af * o * ab) in
  let PB := cm * 255 * (af * o) + cb * (65025 * ab - af * o * ab) in
  let K := ab * (af * o) in let M := 65025 * 255 in
  let U := (255 - ab) * (M - K) in let V := ab * (M - K) + 255 * K in
  let n := 65025 * 65025 * 65025 * (x * a) - (U * PN + V * PB) in
  (inject_Z x * unit a - ideal_mix (weight (unit ab) (unit af * unit o)) cb cf cm (unit ab) (unit af * unit o) ==
   n # (65025 * 65025 * 65025 * 255))%Q.
Proof.
  intros PN PB K M U V n. unfold weight, ideal_mix, ideal_over.
  change (65025 * 65025 * 65025 * 255)%positive with 70110209207109375%positive.
  fractions n 70110209207109375%positive. unfold n, U, V, K, M, PN, PB. unfold Z.sub.
  repeat rewrite ?inject_Z_plus, ?inject_Z_mult, ?inject_Z_opp;
  repeat match goal with |- context [inject_Z (Zpos ?p)] => change (inject_Z (Zpos p)) with (Zpos p # 1)%Q end.
  field.
Qed.

Lemma alpha_frac ab af o a :
  let n := 65025 * a - (255 * (af * o) + 65025 * ab - af * o * ab) in
  (inject_Z a - 255 * ideal_alpha (unit ab) (unit af * unit o) == n # 65025)%Q.
Proof.
  intro n. unfold ideal_alpha, n. fractions (65025 * a - (255 * (af * o) + 65025 * ab - af * o * ab)) 65025%positive. field.
Qed.

(** ** C79 *)
Lemma over_ideal back front o : is_px back -> is_px front -> is_byte o ->
  over_within 2 back front (strength front o) (normal_px back front o).
Proof.
  intros Hb Hf Ho ch Hch. unfold strength. rewrite over_frac. apply frac_lt.
  rewrite (normal_px_c _ _ _ ch Hch), normal_px_a.
  assert (B : is_byte (ch back) /\ is_byte (ch front)).
  { destruct Hb as (? & ? & ? & ?), Hf as (? & ? & ? & ?). destruct Hch as [<-|[<-|[<-|[]]]]; split; assumption. }
  destruct B as [B1 B2]. assert (B3 : is_byte (pa back)) by apply Hb. assert (B4 : is_byte (pa front)) by apply Hf.
  pose proof (over_c_bound _ _ _ _ _ B1 B2 B3 B4 Ho). lia.
Qed.
Lemma normal_ideal c back front o r : is_px back -> is_px front -> is_byte o -> normal c back front o = Ok r ->
  (Qabs (inject_Z (pa r) - 255 * ideal_alpha (unit (pa back)) (strength front o)) <= 1)%Q /\
  over_within 2 back front (strength front o) r.
Proof.
  intros Hb Hf Ho. rewrite normal_eq by assumption. intros [= <-]. split; [|now apply over_ideal].
  unfold strength. rewrite alpha_frac. apply frac_le. rewrite normal_px_a.
  assert (B3 : is_byte (pa back)) by apply Hb. assert (B4 : is_byte (pa front)) by apply Hf.
  pose proof (over_a_bound _ _ _ B3 B4 Ho). lia.
Qed.

(** ** C80 *)
Lemma mix_same_over w cb cf ab s : (ideal_mix w cb cf cf ab s == ideal_over cb cf ab s)%Q.
Proof. unfold ideal_mix. ring. Qed.

Lemma mode_result c m back front o p f r : separable m -> is_px back -> is_px front -> is_byte o ->
  mode_colour m back front p -> blend_mode_to_blend_fn c m = Ok f -> f back front o = Ok r ->
  is_px p /\ pa p = pa front /\
  ((p = front /\ r = normal_px back front o) \/ r = blend_px back front p o).
Proof.
  intros Hm Hb Hf Ho Hp Ef Er. destruct (mode_eq m back front Hm Hb Hf) as (q & (Hq & Ea & F1 & F2 & F3) & Hc).
  assert (HC : mode_colour m back front q) by (repeat split; try assumption; destruct m; assumption).
  assert (p = q) as -> by (apply (mode_colour_unique m back front); assumption).
  destruct (Hc c) as (g & Eg & Hg). assert (g = f) as -> by congruence. rewrite (Hg o Ho) in Er. injection Er as <-.
  split; [exact Hq|]. split; [exact Ea|]. destruct m; try (right; reflexivity). left. split; [|reflexivity].
  cbn in HC. destruct HC as (H1 & H2 & H3 & H4). rewrite (px_eta q), (px_eta front). cbn in H1, H2, H3. congruence.
Qed.

Lemma px_channel p ch : is_px p -> In ch [pr; pg; pb] -> is_byte (ch p).
Proof. intros (? & ? & ? & ?) [<-|[<-|[<-|[]]]]; assumption. Qed.

Lemma blend_px_c back front p o ch : is_px back -> is_px front -> is_px p -> is_byte o -> pa p = pa front ->
  pa back <> 0 -> In ch [pr; pg; pb] ->
  ch (blend_px back front p o) =
  mix (mix (ch (normal_px back front o)) (ch (normal_px back p o)) (pa back)) (ch (normal_px back p o))
      (div255 (pa back * div255 (pa front * o))).
Proof.
  intros Hb Hf Hp Ho Ea Hz Hch. unfold blend_px. destruct (Z.eqb_spec (pa back) 0) as [|_]; [contradiction|].
  pose proof (normal_px_alpha back front p o (eq_sym Ea)) as Ep. pose proof (normal_px_alpha_ge back front o Hb Hf Ho) as Hge.
  assert (Hz1 : pa (normal_px back front o) <> 0) by (destruct Hb as (_ & _ & _ & Hb); unfold is_byte in *; lia).
  rewrite (merge_px_same_alpha (normal_px back front o)) by assumption.
  rewrite merge_px_same_alpha by (cbn; congruence). destruct Hch as [<-|[<-|[<-|[]]]]; reflexivity.
Qed.

Lemma weight_ideal c m back front o p f r : separable m -> is_px back -> is_px front -> is_byte o ->
  mode_colour m back front p -> blend_mode_to_blend_fn c m = Ok f -> f back front o = Ok r ->
  mix_within 4 (weight (unit (pa back)) (strength front o)) back front p (strength front o) r.
Proof.
  intros Hm Hb Hf Ho Hp Ef Er. destruct (mode_result c m back front o p f r Hm Hb Hf Ho Hp Ef Er) as (Hpx & Ea & [[-> ->]| ->]); intros ch Hch.
  - rewrite mix_same_over. eapply Qlt_trans; [now apply over_ideal|reflexivity].
  - unfold strength. rewrite mix_frac. apply frac_lt.
    pose proof (px_channel _ _ Hb Hch) as B1. pose proof (px_channel _ _ Hf Hch) as B2. pose proof (px_channel _ _ Hpx Hch) as B5.
    assert (B3 : is_byte (pa back)) by apply Hb. assert (B4 : is_byte (pa front)) by apply Hf.
    pose proof (over_c_bound _ _ _ _ _ B1 B2 B3 B4 Ho) as N. pose proof (over_c_bound _ _ _ _ _ B1 B5 B3 B4 Ho) as B.
    rewrite (blend_px_alpha back front p o Hb Hf Hpx Ho Ea).
    destruct (Z.eq_dec (pa back) 0) as [Hz|Hz].
    + assert (E : blend_px back front p o = normal_px back front o) by (unfold blend_px; now rewrite Hz).
      rewrite E. rewrite (normal_px_c _ _ _ ch Hch), normal_px_a. rewrite Hz in *.
      set (x := over_c _ _ _ _ _ * over_a _ _ _) in *. clearbody x. lia.
    + rewrite (blend_px_c back front p o ch) by assumption.
      pose proof (normal_px_byte back front o Hb Hf Ho) as P1. pose proof (normal_px_byte back p o Hb Hpx Ho) as P2.
      pose proof (merge_bound (ch (normal_px back front o)) (ch (normal_px back p o)) (pa back) (pa front) o (pa (normal_px back front o))
        (ch front * 255 * (pa front * o) + ch back * (65025 * pa back - pa front * o * pa back))
        (ch p * 255 * (pa front * o) + ch back * (65025 * pa back - pa front * o * pa back))
        _ _ _ (px_channel _ _ P1 Hch) (px_channel _ _ P2 Hch) B3 ltac:(apply P1) B4 Ho eq_refl eq_refl eq_refl) as G.
      rewrite !(normal_px_c _ _ _ ch Hch) in *. rewrite normal_px_a in *. rewrite Ea in *.
      specialize (G N B). cbv zeta in G. lia.
Qed.

Lemma opaque_ideal c m back front o p f r : separable m -> is_px back -> is_px front -> is_byte o -> pa back = 255 ->
  mode_colour m back front p -> blend_mode_to_blend_fn c m = Ok f -> f back front o = Ok r ->
  mix_within 2 (unit (pa back)) back front p (strength front o) r.
Proof.
  intros Hm Hb Hf Ho Ab Hp Ef Er. destruct (mode_result c m back front o p f r Hm Hb Hf Ho Hp Ef Er) as (Hpx & Ea & [[-> ->]| ->]); intros ch Hch.
  - rewrite mix_same_over. now apply over_ideal.
  - assert (E : ch (blend_px back front p o) = ch (normal_px back p o)).
    { rewrite (blend_px_c back front p o ch) by (assumption || lia).
      pose proof (px_channel _ _ (normal_px_byte back front o Hb Hf Ho) Hch). pose proof (px_channel _ _ (normal_px_byte back p o Hb Hpx Ho) Hch).
      rewrite Ab, mix_255 by assumption. apply mix_same. }
    rewrite E, (blend_px_alpha back front p o Hb Hf Hpx Ho Ea), (normal_px_alpha back front p o (eq_sym Ea)).
    assert (Ew : (ideal_mix (unit (pa back)) (ch back) (ch front) (ch p) (unit (pa back)) (strength front o) ==
                  ideal_over (ch back) (ch p) (unit (pa back)) (strength p o))%Q).
    { unfold ideal_mix, strength. rewrite Ea, Ab. change (unit 255) with (255 # 255)%Q. unfold ideal_over. field. }
    rewrite Ew. now apply over_ideal.
Qed.

Lemma translucent_refuted : exists m back front p r, separable m /\ is_px back /\ is_px front /\ mode_colour m back front p /\
  (forall c, exists f, blend_mode_to_blend_fn c m = Ok f /\ f back front 255 = Ok r) /\
  ~ mix_within 63 (unit (pa back)) back front p (strength front 255) r.
Proof.
  exists BDifference, (mkpx 255 255 255 128), (mkpx 0 0 0 255), (mkpx 255 255 255 255), (mkpx 192 192 192 255).
  split; [exact I|]. split; [repeat split; cbn; lia|]. split; [repeat split; cbn; lia|].
  split; [repeat split; reflexivity|]. split.
  - intros [d u]. eexists. split; [reflexivity|]. destruct d; vm_compute; reflexivity.
  - intro H. specialize (H pr (or_introl eq_refl)). vm_compute in H. discriminate.
Qed.
