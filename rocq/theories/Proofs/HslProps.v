(** The HSL blend modes: saturation, grey colours, and the results. *)
From Coq Require Import QArith Qpower Qabs Qround Qminmax Lqa.
From Verif.Model Require Import Blend.
From Verif.Spec Require Import Bytes BlendSpec HslSpec.
From Verif.Proofs Require Import FloatFacts FloatNear HslFacts SoftLight BlendFacts BlendProps.
From Coq Require Import Floats.SpecFloat.
Local Open Scope Z_scope.

Lemma byte_small n : is_byte n -> small n.
Proof. unfold is_byte, small. lia. Qed.
Notation iq := inject_Z.
Lemma iq_min a b : (Qmin (iq a) (iq b) == iq (Z.min a b))%Q.
Proof.
  destruct (Z.min_spec a b) as [[H ->]|[H ->]].
  - rewrite Q.min_l; [reflexivity|]. rewrite <- Zle_Qle. lia.
  - rewrite Q.min_r; [reflexivity|]. rewrite <- Zle_Qle. lia.
Qed.
Lemma iq_max a b : (Qmax (iq a) (iq b) == iq (Z.max a b))%Q.
Proof.
  destruct (Z.max_spec a b) as [[H ->]|[H ->]].
  - rewrite Q.max_r; [reflexivity|]. rewrite <- Zle_Qle. lia.
  - rewrite Q.max_l; [reflexivity|]. rewrite <- Zle_Qle. lia.
Qed.
Lemma iq_sub a b : (iq a - iq b == iq (a - b))%Q.
Proof. unfold Z.sub. rewrite inject_Z_plus, inject_Z_opp. reflexivity. Qed.
Definition lo (r g b : Z) := Z.min r (Z.min g b).
Definition hi (r g b : Z) := Z.max r (Z.max g b).
Lemma min3_int r g b : (min3 (iq r, iq g, iq b) == iq (lo r g b))%Q.
Proof. cbn [min3]. now rewrite iq_min, iq_min. Qed.
Lemma max3_int r g b : (max3 (iq r, iq g, iq b) == iq (hi r g b))%Q.
Proof. cbn [max3]. now rewrite iq_max, iq_max. Qed.
Lemma sat_int r g b : (w3c_sat (iq r, iq g, iq b) == iq (hi r g b - lo r g b))%Q.
Proof. unfold w3c_sat. now rewrite min3_int, max3_int, iq_sub. Qed.
Lemma Qltb_int a b : Qltb (iq a) (iq b) = (a <? b).
Proof.
  pose proof (Qltb_spec (iq a) (iq b)) as H. destruct (Qltb _ _).
  - rewrite <- Zlt_Qlt in H. lia.
  - rewrite <- Zle_Qle in H. lia.
Qed.
Lemma Qle_bool_int a b : Qle_bool (iq a) (iq b) = (a <=? b).
Proof.
  destruct (Qle_bool _ _) eqn:E.
  - apply Qle_bool_iff in E. rewrite <- Zle_Qle in E. lia.
  - destruct (Z.leb_spec a b); [|reflexivity]. rewrite Zle_Qle in H. apply Qle_bool_iff in H. congruence.
Qed.
Lemma Qeq_bool_int a b : Qeq_bool (iq a) (iq b) = (a =? b).
Proof.
  destruct (Qeq_bool _ _) eqn:E.
  - apply Qeq_bool_iff, (proj1 (inject_Z_injective a b)) in E. lia.
  - destruct (Z.eqb_spec a b); [|reflexivity]. subst. rewrite Qeq_bool_refl in E. discriminate.
Qed.

Lemma saturation_int r g b : is_byte r -> is_byte g -> is_byte b ->
  saturation (f_of_Z r) (f_of_Z g) (f_of_Z b) = f_of_Z (hi r g b - lo r g b).
Proof.
  intros Hr Hg Hb. unfold saturation, hi, lo. unfold is_byte in *.
  rewrite !fmax_int, !fmin_int, fsub_int; unfold small; try reflexivity; lia.
Qed.

(** ** SetSat *)
Lemma set_sat_int r g b s t : (s == iq t)%Q ->
  let '(x, y, z) := w3c_set_sat (iq r, iq g, iq b) s in
  let f v := if lo r g b <? hi r g b then (iq (v - lo r g b) * iq t / iq (hi r g b - lo r g b))%Q else 0%Q in
  (x == f r /\ y == f g /\ z == f b)%Q.
Proof.
  intro E. unfold w3c_set_sat. rewrite (Qltb_comp _ _ _ _ (min3_int r g b) (max3_int r g b)), Qltb_int.
  destruct (_ <? _); cbn [map3]; [|repeat split; reflexivity].
  repeat split; rewrite min3_int, max3_int, E, !iq_sub; reflexivity.
Qed.
Lemma mid_near d t w : 0 <= d <= w -> 0 < w <= 255 -> 0 <= t <= 255 ->
  near (fdiv (fmul (f_of_Z d) (f_of_Z t)) (f_of_Z w)) (iq d * iq t / iq w) u0.
Proof.
  intros Hd Hw Ht.
  assert (S : small (d * t)) by (unfold small; nia).
  rewrite fmul_int by (try exact S; unfold small; lia).
  destruct (small_near (d * t) S) as [F1 E1]. destruct (small_near w ltac:(unfold small; lia)) as [F2 E2].
  assert (W1 : (1 <= iq w)%Q) by (change 1%Q with (iq 1); rewrite <- Zle_Qle; lia).
  assert (R : (0 <= iq d * iq t / iq w <= 255)%Q).
  { rewrite <- inject_Z_mult. apply div_between; [lra|]. change 0%Q with (iq 0). change 255%Q with (iq 255).
    rewrite <- !inject_Z_mult, <- !Zle_Qle. nia. }
  assert (RD : rounds (fdiv (f_of_Z (d * t)) (f_of_Z w)) (fval (f_of_Z (d * t)) / fval (f_of_Z w))).
  { apply fdiv_ok; [exact F1|exact F2|apply small_big, S| |apply small_big; unfold small; lia].
    rewrite E2. rewrite Qabs_pos by lra. apply (Qle_trans _ (p2 0)); [apply p2_le; lia|exact W1]. }
  assert (EV : (fval (f_of_Z (d * t)) / fval (f_of_Z w) == iq d * iq t / iq w)%Q) by (rewrite E1, E2, inject_Z_mult; reflexivity).
  apply (rounds_eq _ _ _ EV) in RD. apply (rounds_near _ _ 256) in RD; [|lra|lra].
  eapply near_weaken; [exact RD|]. rewrite u0_ulp. lra.
Qed.
Lemma int_near n : is_byte n -> near (f_of_Z n) (iq n) u0.
Proof. intro H. eapply near_weaken; [apply f_of_Z_near; unfold is_byte in H; lia|discriminate]. Qed.

Definition zero3 (f : f64 * f64 * f64) (c : rgb) : Prop :=
  f = (f_of_Z 0, f_of_Z 0, f_of_Z 0) /\ let '(x, y, z) := c in (x == 0 /\ y == 0 /\ z == 0)%Q.
Ltac smalls := unfold is_byte, small, lo, hi in *; lia.
(** A channel after SetSat; it is 0 if [T] is. *)
Definition good (T : Z) (f : f64) (x : Q) : Prop :=
  near f x u0 /\ (0 <= x <= 255)%Q /\ (T = 0 -> f = f_of_Z 0 /\ (x == 0)%Q).
Lemma good_int T n x : is_byte n -> (x == iq n)%Q -> (T = 0 -> n = 0) -> good T (f_of_Z n) x.
Proof.
  intros Hn Hx HT. split; [|split].
  - apply (near_eq _ (iq n)); [now symmetry|now apply int_near].
  - rewrite Hx. change 0%Q with (iq 0). change 255%Q with (iq 255). rewrite <- !Zle_Qle. unfold is_byte in Hn. lia.
  - intro E. rewrite Hx, (HT E). split; reflexivity.
Qed.
Lemma good_zero T x : (x == 0)%Q -> good T (f_of_Z 0) x.
Proof. intro H. apply good_int; [unfold is_byte; lia|exact H|auto]. Qed.
Lemma good_mid T t d w d' w' x : (x == iq d' * iq t / iq w')%Q -> d = d' -> w = w' -> 0 <= d <= w -> 0 < w <= 255 -> is_byte t ->
  (T = 0 -> t = 0) -> good T (fdiv (fmul (f_of_Z d) (f_of_Z t)) (f_of_Z w)) x.
Proof.
  intros Hx <- <- Hd Hw Ht HT. assert (W1 : (1 <= iq w)%Q) by (change 1%Q with (iq 1); rewrite <- Zle_Qle; lia).
  split; [|split].
  - apply (near_eq _ _ _ _ (Qeq_sym _ _ Hx)). unfold is_byte in Ht. apply mid_near; lia.
  - rewrite Hx. rewrite <- inject_Z_mult. apply div_between; [lra|]. change 0%Q with (iq 0). change 255%Q with (iq 255).
    rewrite <- !inject_Z_mult, <- !Zle_Qle. unfold is_byte in Ht. nia.
  - intro E. rewrite (HT E) in *. split.
    + rewrite fmul_int by (unfold small; lia). rewrite Z.mul_0_r. apply fdiv_zero; [lia|unfold small; lia].
    + rewrite Hx. change (iq 0) with 0%Q. unfold Qdiv. ring.
Qed.
Lemma at_lo x n h t d : (x == iq d * iq t / iq (h - n))%Q -> d = 0 -> (x == 0)%Q.
Proof. intros -> ->. change (iq 0) with 0%Q. unfold Qdiv. ring. Qed.
Lemma at_hi x n h t d : (x == iq d * iq t / iq (h - n))%Q -> d = h - n -> n < h -> (x == iq t)%Q.
Proof. intros -> -> H. field. apply int_nonzero. lia. Qed.
Lemma finish T f1 f2 f3 x y z : 0 <= T -> good T f1 x -> good T f2 y -> good T f3 z ->
  (x == 0 \/ y == 0 \/ z == 0)%Q -> (0 < T -> (1 <= x \/ 1 <= y \/ 1 <= z)%Q) ->
  near3 (f1, f2, f3) (x, y, z) u0 /\ in_range (x, y, z) /\ ((1 <= w3c_sat (x, y, z))%Q \/ zero3 (f1, f2, f3) (x, y, z)).
Proof.
  intros HT (N1 & R1 & Z1) (N2 & R2 & Z2) (N3 & R3 & Z3) H0 H1. split; [repeat split; assumption || apply N1 || apply N2 || apply N3|].
  split; [repeat split; lra|]. destruct (Z.eq_dec T 0) as [E|E].
  - right. destruct (Z1 E) as [-> ?], (Z2 E) as [-> ?], (Z3 E) as [-> ?]. split; [reflexivity|repeat split; assumption].
  - left. specialize (H1 ltac:(lia)). unfold w3c_sat.
    pose proof (min3_spec x y z) as (A1 & A2 & A3 & _). pose proof (max3_spec x y z) as (B1 & B2 & B3 & _).
    destruct H0 as [H0|[H0|H0]], H1 as [H1|[H1|H1]]; lra.
Qed.
Lemma ge_1 x n : (x == iq n)%Q -> 0 < n -> (1 <= x)%Q.
Proof. intros -> H. change 1%Q with (iq 1). rewrite <- Zle_Qle. lia. Qed.

Ltac decide_bools := repeat match goal with
  | |- context [?a <? ?b] => first [replace (a <? b) with true by lia|replace (a <? b) with false by lia]
  | |- context [?a <=? ?b] => first [replace (a <=? b) with true by lia|replace (a <=? b) with false by lia]
  | |- context [?a =? ?b] => first [replace (a =? b) with true by lia|replace (a =? b) with false by lia]
  end.
Ltac chan := first
  [ eapply good_zero; first [eassumption|reflexivity|eapply at_lo; [eassumption|smalls]]
  | eapply good_int; [assumption|first [reflexivity|eapply at_hi; [eassumption|smalls|smalls]]|smalls]
  | eapply good_mid; [eassumption|smalls|smalls|smalls|smalls|assumption|smalls] ].
Ltac zero := first [eassumption|eapply at_lo; [eassumption|smalls]].
Ltac some_zero := first [left; zero|right; left; zero|right; right; zero].
Ltac one := eapply ge_1; [first [reflexivity|eapply at_hi; [eassumption|smalls|smalls]]|smalls].
Ltac one_of := first [left; one|right; left; one|right; right; one].
Ltac some_one := intro; match goal with
  | H : 0 < ?r + ?t |- _ => destruct (Z.eq_dec t 0); one_of
  | _ => one_of
  end.
Lemma set_saturation_ok r g b s t : is_byte r -> is_byte g -> is_byte b -> is_byte t -> (s == iq t)%Q ->
  let c := ase_set_sat (iq r, iq g, iq b) s in
  let f := set_saturation (f_of_Z r) (f_of_Z g) (f_of_Z b) (f_of_Z t) in
  near3 f c u0 /\ in_range c /\ ((1 <= w3c_sat c)%Q \/ zero3 f c).
Proof.
  intros Hr Hg Hb Ht Es. cbv zeta. pose proof (set_sat_int r g b s t Es) as V. unfold ase_set_sat.
  destruct (w3c_set_sat (iq r, iq g, iq b) s) as [[x y] z]. cbv zeta in V. destruct V as (Vx & Vy & Vz).
  rewrite !Qeq_bool_int, !Qle_bool_int, Qltb_int. unfold lo, hi in *. revert Vx Vy Vz.
  destruct (Z.lt_trichotomy r g) as [A|[A|A]], (Z.lt_trichotomy g b) as [B|[B|B]], (Z.lt_trichotomy r b) as [C|[C|C]]; try lia.
  all: unfold set_saturation, ASEPRITE_SATURATION_BUG_COMPATIBLE, static_sort3_orig.
  all: rewrite !fmin_int, !fmax_int, !fltb_int by smalls.
  all: decide_bools; cbn [nth upd]; rewrite ?fltb_int by smalls; decide_bools; cbn [nth upd andb].
  all: rewrite ?fsub_int by smalls.
  all: intros Vx Vy Vz.
  all: first [apply (finish t); [smalls|chan|chan|chan|some_zero|some_one]
             |apply (finish (r + t)); [smalls|chan|chan|chan|some_zero|some_one]
             |apply (finish r); [smalls|chan|chan|chan|some_zero|some_one]
             |apply (finish (g + t)); [smalls|chan|chan|chan|some_zero|some_one]].
Qed.

(** ** Grey colours *)
Lemma flt_multiple x n : flt x -> (p2 n <= Qabs (fval x))%Q -> exists k, (fval x == iq k * p2 (n - 53))%Q.
Proof.
  intros [F C] H. destruct x as [s|s| |s m e]; try contradiction.
  { cbn [fval] in H. change (Qabs 0) with 0%Q in H. pose proof (p2_pos n). lra. }
  rewrite value_abs in H. cbn [canon] in C. rewrite fexp_eq in C.
  destruct (digits_bounds (Z.pos m) ltac:(lia)) as [_ U]. pose proof (digits_nonneg (Z.pos m)) as D.
  assert (H1 : (iq (Z.pos m) < p2 (Zdigits2 (Z.pos m)))%Q) by (rewrite p2_Z by assumption; now rewrite <- Zlt_Qlt).
  assert (H2 : (p2 n < p2 (Zdigits2 (Z.pos m) + e))%Q).
  { eapply Qle_lt_trans; [exact H|]. rewrite p2_add. apply Qmult_lt_compat_r; [apply p2_pos|exact H1]. }
  apply p2_lt_inv in H2.
  exists (cond_Zopp s (Z.pos m * 2 ^ (e - (n - 53)))). rewrite cond_Zopp_val. cbn [fval].
  assert (E : (iq (Z.pos m) * p2 e == iq (Z.pos m * 2 ^ (e - (n - 53))) * p2 (n - 53))%Q).
  { rewrite inject_Z_mult, <- p2_Z by lia. rewrite <- Qmult_assoc, <- p2_add. replace (e - (n - 53) + (n - 53)) with e by lia. reflexivity. }
  destruct s; cbn [sign]; rewrite E; ring.
Qed.
Lemma fmin_same x : fmin x x = x.
Proof. unfold fmin. destruct (is_nan x); [reflexivity|]. now destruct (fltb x x). Qed.
Lemma fmax_same x : fmax x x = x.
Proof. unfold fmax. destruct (is_nan x); [reflexivity|]. now destruct (fltb x x). Qed.

Lemma fval_zero x : flt x -> (fval x == 0)%Q -> exists s, x = S754_zero s.
Proof.
  intros [F _] H. destruct x as [s|s| |s m e]; try contradiction; [now exists s|].
  pose proof (mag_pos m e). destruct s; cbn [fval sign] in H; lra.
Qed.

Lemma zero_quotient s t x : finite t -> fadd x (fdiv (fmul (S754_zero s) t) (S754_zero s)) = S754_nan.
Proof. destruct t; try contradiction; intros _; now destruct x. Qed.

(** Dividing by a factor *)
Lemma cancel_near d t v : flt d -> (p2 (-100) <= Qabs (fval d))%Q -> (Qabs (fval d) <= 1)%Q -> near t v (100 * u0) ->
  (-255 <= v <= 255)%Q -> near (fdiv (fmul d t) d) v (110 * u0).
Proof.
  intros Fd Ld Ud Ht Hv. pose proof Ht as [Ft Et].
  assert (Bt : (Qabs (fval t) <= 256)%Q) by (apply Qabs_Qle_condition; q).
  assert (B1 : (1 <= big)%Q) by (change 1%Q with (p2 0); apply p2_le; lia).
  assert (B2 : (256 <= big)%Q) by (change 256%Q with (p2 8); apply p2_le; lia).
  pose proof (fmul_ok d t Fd Ft ltac:(lra) ltac:(lra)) as (Fm & Em & _).
  set (D := Qabs (fval d)) in *. pose proof (p2_pos (-100)) as P100.
  assert (ND : (~ fval d == 0)%Q) by (intro E; unfold D in Ld; rewrite E in Ld; change (Qabs 0) with 0%Q in Ld; lra).
  rewrite Qabs_Qmult in Em. fold D in Em. set (T := Qabs (fval t)) in *.
  assert (T0 : (0 <= T)%Q) by apply Qabs_nonneg.
  assert (S1 : (p2 (-1075) <= ulp * p2 (-100))%Q).
  { change ulp with (p2 (-52)). rewrite <- p2_add. apply p2_le. lia. }
  assert (U0 : (0 < ulp)%Q) by reflexivity.
  assert (EM : (Qabs (fval (fmul d t) - fval d * fval t) <= D * (129 * ulp))%Q).
  { eapply Qle_trans; [exact Em|]. rewrite p2_ulp.
    assert (A1 : (D * T <= D * 256)%Q) by (apply Qmult_le_l; lra). assert (A2 : (ulp * p2 (-100) <= ulp * D)%Q) by (apply Qmult_le_l; lra).
    nra. }
  assert (BM : (Qabs (fval (fmul d t)) <= 257)%Q).
  { apply Qabs_Qle_condition. apply Qabs_Qle_condition in EM.
    assert (A : (Qabs (fval d * fval t) <= 256)%Q) by (rewrite Qabs_Qmult; fold D T; nra). apply Qabs_Qle_condition in A.
    assert (D * (129 * ulp) <= 1)%Q by (unfold ulp; lra). lra. }
  assert (B3 : (257 <= big)%Q) by (apply (Qle_trans _ (p2 9)); [discriminate|apply p2_le; lia]).
  pose proof (fdiv_ok (fmul d t) d Fm Fd ltac:(lra) ltac:(fold D; apply (Qle_trans _ (p2 (-100))); [apply p2_le; lia|lra]) ltac:(fold D; lra)) as R.
  assert (EQ : (Qabs (fval (fmul d t) / fval d - fval t) <= 129 * ulp)%Q).
  { assert (E : (fval (fmul d t) / fval d - fval t == (fval (fmul d t) - fval d * fval t) / fval d)%Q) by (field; exact ND).
    rewrite E. unfold Qdiv. rewrite Qabs_Qmult, Qabs_Qinv. fold D.
    change (Qabs (fval (fmul d t) - fval d * fval t) / D <= 129 * ulp)%Q. apply Qle_shift_div_r; [lra|]. lra. }
  apply Qabs_Qle_condition in EQ. apply Qabs_Qle_condition in Bt.
  destruct (rounds_near _ _ 257 R ltac:(lra) ltac:(q)) as [F N]. split; [exact F|]. q.
Qed.

Lemma gray_channel lm l g n : is_byte g -> near lm l (8 * u0) -> (11#100 <= l <= 255)%Q -> (l * 100 == iq n)%Q ->
  exists w, set_luminocity (f_of_Z g) (f_of_Z g) (f_of_Z g) lm = (w, w, w) /\
    (near w (Qmin l 1) (200 * u0) \/ ((1 <= l)%Q /\ w = S754_nan)).
Proof.
  intros Hg Hlm Hl Hn. pose proof (int_near g Hg) as Ng.
  assert (Rg : (0 <= iq g <= 255)%Q).
  { change 0%Q with (iq 0). change 255%Q with (iq 255). rewrite <- !Zle_Qle. unfold is_byte in Hg. lia. }
  set (fg := f_of_Z g) in *.
  assert (NL : near (luminosity fg fg fg) (iq g) (9 * u0)).
  { apply (near_eq _ (w3c_lum (iq g, iq g, iq g))); [unfold w3c_lum; ring|].
    eapply near_weaken; [apply (luminosity_near _ _ _ _ _ _ u0 256); try eassumption; q|q]. }
  unfold set_luminocity. cbv zeta. set (dl := fsub lm (luminosity fg fg fg)).
  assert (ND : near dl (l - iq g) (18 * u0)) by (eapply (near_sub_le _ _ _ _ _ _ 256); [exact Hlm|exact NL|q..]).
  assert (NV : near (fadd fg dl) (iq g + (l - iq g)) (22 * u0)) by (eapply (near_add_le _ _ _ _ _ _ 512); [exact Ng|exact ND|q..]).
  apply (near_eq _ _ l) in NV; [|ring]. set (v := fadd fg dl) in *.
  rewrite clip_color_channels. cbv zeta. rewrite !fmin_same, !fmax_same. set (lum := luminosity v v v).
  assert (NM : near lum l (38 * u0)).
  { apply (near_eq _ (w3c_lum (l, l, l))); [unfold w3c_lum; ring|].
    eapply near_weaken; [apply (luminosity_near _ _ _ _ _ _ (22 * u0) 512); try eassumption; q|q]. }
  exists (clip_channel lum v v v). split; [reflexivity|]. unfold clip_channel.
  pose proof (fltb_ok v (f_of_Z 0) (proj1 NV) (proj1 zero_near)) as C0. pose proof (proj2 zero_near) as O0.
  pose proof (fltb_ok (f_of_Z 1) v (proj1 one_near) (proj1 NV)) as C1. pose proof (proj2 one_near) as O1.
  pose proof (proj2 NV) as EV. pose proof (proj2 NM) as EM.
  destruct (fltb v (f_of_Z 0)); [exfalso; q|]. cbv zeta.
  assert (HN : (l < 1 -> l <= 99#100)%Q /\ (1 < l -> 101#100 <= l)%Q).
  { split; intro K.
    - assert (K' : (iq n < iq 100)%Q) by (rewrite <- Hn; change (iq 100) with 100%Q; lra). rewrite <- Zlt_Qlt in K'.
      assert (K2 : (iq n <= iq 99)%Q) by (rewrite <- Zle_Qle; lia). rewrite <- Hn in K2. change (iq 99) with 99%Q in K2. lra.
    - assert (K' : (iq 100 < iq n)%Q) by (rewrite <- Hn; change (iq 100) with 100%Q; lra). rewrite <- Zlt_Qlt in K'.
      assert (K2 : (iq 101 <= iq n)%Q) by (rewrite <- Zle_Qle; lia). rewrite <- Hn in K2. change (iq 101) with 101%Q in K2. lra. }
  destruct (fltb (f_of_Z 1) v).
  - assert (L1 : (1 <= l)%Q) by (destruct (Qlt_le_dec l 1) as [K|K]; [apply HN in K; q|exact K]).
    assert (P1 : (p2 (-1) <= Qabs (fval v))%Q) by (apply Qabs_lower; left; change (p2 (-1)) with (1#2); q).
    assert (P2 : (p2 (-1) <= Qabs (fval lum))%Q) by (apply Qabs_lower; left; change (p2 (-1)) with (1#2); q).
    destruct (flt_multiple v (-1) (proj1 NV) P1) as (k1 & K1). destruct (flt_multiple lum (-1) (proj1 NM) P2) as (k2 & K2).
    assert (BV : (Qabs (fval v) <= big)%Q).
    { eapply near_big; [exact NV| |q]. pose proof (small_399 500000000 ltac:(discriminate)). q. }
    assert (BL : (Qabs (fval lum) <= big)%Q).
    { eapply near_big; [exact NM| |q]. pose proof (small_399 500000000 ltac:(discriminate)). q. }
    pose proof (fsub_ok v lum (proj1 NV) (proj1 NM) BV BL) as (Fd & _ & Xd). set (d := fsub v lum) in *.
    assert (ED : (fval v - fval lum == iq (k1 - k2) * p2 (-54))%Q) by (rewrite K1, K2, <- iq_sub; change (-1 - 53) with (-54); ring).
    assert (VD : (fval d == fval v - fval lum)%Q).
    { apply (Xd (k1 - k2) (-54)); [lia| |exact ED]. apply (Qle_lt_trans _ (p2 (-10))); [|change (-54 + 53) with (-1); reflexivity].
      apply Qabs_Qle_condition. change (p2 (-10)) with (1#1024). q. }
    destruct (Z.eq_dec k1 k2) as [EK|NK].
    + right. split; [exact L1|]. assert (Z0 : (fval d == 0)%Q) by (rewrite VD, ED, EK, Z.sub_diag; change (iq 0) with 0%Q; ring).
      destruct (fval_zero d Fd Z0) as [s ->].
      assert (Ft : flt (fsub (f_of_Z 1) lum)).
      { assert (N2 : near (fsub (f_of_Z 1) lum) (1 - l) (39 * u0)) by (eapply (near_sub_le _ lum _ _ _ _ 256); [exact one_near|exact NM|q..]).
        apply N2. }
      exact (zero_quotient s _ lum (proj1 Ft)).
    + left. assert (M1 : (Qmin l 1 == 1)%Q) by (rewrite Q.min_r; [reflexivity|exact L1]).
      apply (near_eq _ 1); [now symmetry|].
      assert (N2 : near (fsub (f_of_Z 1) lum) (1 - l) (100 * u0)).
      { eapply (near_sub_le _ lum _ _ _ _ 256); [exact one_near|exact NM|q..]. }
      assert (N3 : near (fdiv (fmul d (fsub (f_of_Z 1) lum)) d) (1 - l) (110 * u0)).
      { apply cancel_near; [exact Fd| | |exact N2|lra].
        - rewrite VD, ED, Qabs_Qmult, (Qabs_pos (p2 (-54))) by (apply Qlt_le_weak, p2_pos).
          change (Qabs (iq (k1 - k2))) with (iq (Z.abs (k1 - k2))).
          assert (1 <= iq (Z.abs (k1 - k2)))%Q by (change 1%Q with (iq 1); rewrite <- Zle_Qle; lia).
          assert (p2 (-100) <= p2 (-54))%Q by (apply p2_le; lia). pose proof (p2_pos (-54)). nra.
        - rewrite VD. apply Qabs_Qle_condition. q. }
      apply (near_eq _ (l + (1 - l))); [ring|]. eapply (near_add_le _ _ _ _ _ _ 512); [exact NM|exact N3|q..].
  - left. assert (L1 : (l <= 1)%Q) by (destruct (Qlt_le_dec 1 l) as [K|K]; [apply HN in K; q|exact K]).
    apply (near_eq _ l); [rewrite Q.min_l; [reflexivity|exact L1]|]. eapply near_weaken; [exact NV|q].
Qed.

(** Black luminosity: all 256 greys *)
Definition black_lum : f64 := luminosity (f_of_Z 0) (f_of_Z 0) (f_of_Z 0).
Definition gray_black (g : Z) : bool :=
  let '(x, y, z) := set_luminocity (f_of_Z g) (f_of_Z g) (f_of_Z g) black_lum in
  let s v := f_as_i32 (fmul v (f_of_Z 255)) in (s x =? 0) && (s y =? 0) && (s z =? 0).
Lemma gray_black_table : forallb gray_black all_bytes = true.
Proof. vm_compute. reflexivity. Qed.
Lemma gray_black_eq g : is_byte g -> gray_black g = true.
Proof. intro H. pose proof gray_black_table as T. rewrite forallb_forall in T. apply T. now apply in_all_bytes. Qed.

(** ** The channels *)
Definition to_byte (v : f64) : Z := as_u8 (f_as_i32 (fmul v (f_of_Z 255))).
Lemma lum_int r g b : (w3c_lum (iq r, iq g, iq b) * 100 == iq (30 * r + 59 * g + 11 * b))%Q.
Proof. unfold w3c_lum. rewrite !inject_Z_plus, !inject_Z_mult. change (iq 30) with 30%Q. change (iq 59) with 59%Q. change (iq 11) with 11%Q. ring. Qed.
Lemma byte_range n : is_byte n -> (0 <= iq n <= 255)%Q.
Proof. intro H. change 0%Q with (iq 0). change 255%Q with (iq 255). rewrite <- !Zle_Qle. unfold is_byte in H. lia. Qed.
Lemma lum_near r g b : is_byte r -> is_byte g -> is_byte b ->
  near (luminosity (f_of_Z r) (f_of_Z g) (f_of_Z b)) (w3c_lum (iq r, iq g, iq b)) (8 * u0).
Proof.
  intros Hr Hg Hb. pose proof (byte_range r Hr). pose proof (byte_range g Hg). pose proof (byte_range b Hb).
  assert (N : forall n, is_byte n -> near (f_of_Z n) (iq n) 0) by (intros n Hn; apply f_of_Z_near; unfold is_byte in Hn; lia).
  eapply near_weaken; [apply (luminosity_near _ _ _ _ _ _ 0 256); auto; lra|]. rewrite u0_ulp. lra.
Qed.
Lemma nan_byte : to_byte S754_nan = 0.
Proof. reflexivity. Qed.

Definition tri (f : f64 * f64 * f64) (c : rgb) (l : Q) : Prop :=
  let '(u, v, w) := f in
  if Qltb (min3 c) (max3 c)
  then let '(x, y, z) := w3c_set_lum 1 c l in
       wrapped_byte x (to_byte u) /\ wrapped_byte y (to_byte v) /\ wrapped_byte z (to_byte w)
  else to_byte u = to_byte v /\ to_byte v = to_byte w /\ (wrapped_byte (Qmin l 1) (to_byte u) \/ ((1 <= l)%Q /\ to_byte u = 0)).

Lemma channel_byte' v x e : near v x e -> (e <= 21000000 * u0)%Q -> (-3000 <= x <= 3000)%Q -> wrapped_byte x (to_byte v).
Proof. intros N E R. apply channel_byte; [eapply near_weaken; eassumption|exact R]. Qed.

Lemma gray_tri g l r1 g1 b1 (c : rgb) : is_byte g -> is_byte r1 -> is_byte g1 -> is_byte b1 -> (l == w3c_lum (iq r1, iq g1, iq b1))%Q ->
  Qltb (min3 c) (max3 c) = false ->
  tri (set_luminocity (f_of_Z g) (f_of_Z g) (f_of_Z g) (luminosity (f_of_Z r1) (f_of_Z g1) (f_of_Z b1))) c l.
Proof.
  intros Hg Hr1 Hg1 Hb1 El HC. pose proof (lum_int r1 g1 b1) as LI. rewrite <- El in LI.
  pose proof (lum_near r1 g1 b1 Hr1 Hg1 Hb1) as LN. apply (near_eq _ _ _ _ (Qeq_sym _ _ El)) in LN.
  destruct (Z.eq_dec (30 * r1 + 59 * g1 + 11 * b1) 0) as [E|N].
  - unfold is_byte in Hr1, Hg1, Hb1. assert (r1 = 0) by lia. assert (g1 = 0) by lia. assert (b1 = 0) by lia. subst r1 g1 b1.
    pose proof (gray_black_eq g Hg) as B. unfold gray_black, black_lum in B.
    destruct (set_luminocity _ _ _ _) as [[u v] w]. unfold tri. rewrite HC. cbv zeta in B. unfold to_byte.
    destruct (Z.eqb_spec (f_as_i32 (fmul u (f_of_Z 255))) 0) as [->|]; [|discriminate].
    destruct (Z.eqb_spec (f_as_i32 (fmul v (f_of_Z 255))) 0) as [->|]; [|discriminate].
    destruct (Z.eqb_spec (f_as_i32 (fmul w (f_of_Z 255))) 0) as [->|]; [|discriminate].
    split; [reflexivity|]. split; [reflexivity|]. left. exists 0%Q. split; [|reflexivity].
    change (iq (30 * 0 + 59 * 0 + 11 * 0)) with 0%Q in LI. assert (L0 : (l == 0)%Q) by lra.
    rewrite Q.min_l by lra. rewrite L0. split; discriminate.
  - assert (L : (11#100 <= l <= 255)%Q).
    { assert (iq 11 <= iq (30 * r1 + 59 * g1 + 11 * b1) <= iq 25500)%Q by (rewrite <- !Zle_Qle; unfold is_byte in *; lia).
      rewrite <- LI in H. change (iq 11) with 11%Q in H. change (iq 25500) with 25500%Q in H. lra. }
    destruct (gray_channel _ l g _ Hg LN L LI) as (w & -> & H). unfold tri. rewrite HC.
    split; [reflexivity|]. split; [reflexivity|]. destruct H as [H|[H ->]].
    + left. eapply channel_byte'; [exact H|q|]. pose proof (Q.le_min_r l 1). destruct (Q.min_spec l 1) as [[_ ->]|[_ ->]]; lra.
    + right. split; [exact H|reflexivity].
Qed.
Lemma colour_tri x y z (c : rgb) l r1 g1 b1 : near3 (x, y, z) c u0 -> in_range c -> (1 <= w3c_sat c)%Q ->
  is_byte r1 -> is_byte g1 -> is_byte b1 -> (l == w3c_lum (iq r1, iq g1, iq b1))%Q ->
  tri (set_luminocity x y z (luminosity (f_of_Z r1) (f_of_Z g1) (f_of_Z b1))) c l.
Proof.
  destruct c as [[r g] b]. intros N R S Hr1 Hg1 Hb1 El.
  pose proof (lum_near r1 g1 b1 Hr1 Hg1 Hb1) as LN. apply (near_eq _ _ _ _ (Qeq_sym _ _ El)) in LN.
  assert (L : (0 <= l <= 255)%Q).
  { pose proof (byte_range r1 Hr1). pose proof (byte_range g1 Hg1). pose proof (byte_range b1 Hb1). rewrite El. unfold w3c_lum. lra. }
  pose proof (set_luminocity_ok x y z _ r g b l N LN R L S) as H. pose proof (set_lum_range r g b l R L S) as B.
  unfold tri. destruct (set_luminocity _ _ _ _) as [[u v] w]. destruct (w3c_set_lum 1 (r, g, b) l) as [[x' y'] z'].
  pose proof (Qltb_spec (min3 (r, g, b)) (max3 (r, g, b))) as C. unfold w3c_sat in S. destruct (Qltb _ _); [|lra].
  destruct H as (H1 & H2 & H3), B as (B1 & B2 & B3). split; [|split]; now apply channel_byte.
Qed.
Lemma bytes_tri r g b l r1 g1 b1 : is_byte r -> is_byte g -> is_byte b -> is_byte r1 -> is_byte g1 -> is_byte b1 -> (l == w3c_lum (iq r1, iq g1, iq b1))%Q ->
  tri (set_luminocity (f_of_Z r) (f_of_Z g) (f_of_Z b) (luminosity (f_of_Z r1) (f_of_Z g1) (f_of_Z b1))) (iq r, iq g, iq b) l.
Proof.
  intros Hr Hg Hb Hr1 Hg1 Hb1 El. destruct (Z.eq_dec (lo r g b) (hi r g b)) as [E|N].
  - assert (g = r) by (unfold lo, hi in E; lia). assert (b = r) by (unfold lo, hi in E; lia). subst g b.
    apply gray_tri; try assumption. rewrite (Qltb_comp _ _ _ _ (min3_int r r r) (max3_int r r r)), Qltb_int. lia.
  - apply colour_tri; try assumption.
    + repeat split; now apply int_near.
    + repeat split; now apply byte_range.
    + rewrite sat_int. change 1%Q with (iq 1). rewrite <- Zle_Qle. unfold lo, hi in *. lia.
Qed.
Lemma saturated_tri r g b s t l r1 g1 b1 : is_byte r -> is_byte g -> is_byte b -> is_byte t -> (s == iq t)%Q ->
  is_byte r1 -> is_byte g1 -> is_byte b1 -> (l == w3c_lum (iq r1, iq g1, iq b1))%Q ->
  tri (let '(x, y, z) := set_saturation (f_of_Z r) (f_of_Z g) (f_of_Z b) (f_of_Z t) in
       set_luminocity x y z (luminosity (f_of_Z r1) (f_of_Z g1) (f_of_Z b1))) (ase_set_sat (iq r, iq g, iq b) s) l.
Proof.
  intros Hr Hg Hb Ht Es Hr1 Hg1 Hb1 El. destruct (set_saturation_ok r g b s t Hr Hg Hb Ht Es) as (N & R & H).
  destruct (set_saturation _ _ _ _) as [[x y] z]. set (c := ase_set_sat _ s) in *. destruct H as [H|[E V]].
  - now apply colour_tri.
  - injection E as -> -> ->. apply (gray_tri 0); try assumption; [unfold is_byte; lia|].
    destruct c as [[cx cy] cz]. destruct V as (V1 & V2 & V3).
    pose proof (Qltb_spec (min3 (cx, cy, cz)) (max3 (cx, cy, cz))) as C.
    pose proof (min3_spec cx cy cz) as (_ & _ & _ & A). pose proof (max3_spec cx cy cz) as (_ & _ & _ & B).
    destruct (Qltb _ _); [|reflexivity]. exfalso. destruct A as [A|[A|A]], B as [B|[B|B]]; lra.
Qed.

Definition hsl_floats (m : blend_mode) (back front : px) : f64 * f64 * f64 :=
  let bl := luminosity (f_of_Z (pr back)) (f_of_Z (pg back)) (f_of_Z (pb back)) in
  match m with
  | BHue =>
      let '(x, y, z) := set_saturation (f_of_Z (pr front)) (f_of_Z (pg front)) (f_of_Z (pb front))
        (saturation (f_of_Z (pr back)) (f_of_Z (pg back)) (f_of_Z (pb back))) in set_luminocity x y z bl
  | BSaturation =>
      let '(x, y, z) := set_saturation (f_of_Z (pr back)) (f_of_Z (pg back)) (f_of_Z (pb back))
        (saturation (f_of_Z (pr front)) (f_of_Z (pg front)) (f_of_Z (pb front))) in set_luminocity x y z bl
  | BColor => set_luminocity (f_of_Z (pr front)) (f_of_Z (pg front)) (f_of_Z (pb front)) bl
  | _ => set_luminocity (f_of_Z (pr back)) (f_of_Z (pg back)) (f_of_Z (pb back))
           (luminosity (f_of_Z (pr front)) (f_of_Z (pg front)) (f_of_Z (pb front)))
  end.
Lemma hsl_floats_shape m back front c : hsl m -> exists g,
  blend_mode_to_blend_fn c m = Ok (blender c g) /\
  forall o, g back front o = (let '(x, y, z) := hsl_floats m back front in
    bind (px_from_f64 c x y z (f_of_Z (pa front))) (fun f => normal c back f o)).
Proof.
  destruct m; try contradiction; intros _; eexists; (split; [reflexivity|]); intro o; cbn [hsl_floats].
  - unfold hsl_hue_baseline. cbv zeta. destruct (set_saturation _ _ _ _) as [[x y] z]. destruct (set_luminocity _ _ _ _) as [[u v] w]. reflexivity.
  - unfold hsl_saturation_baseline. cbv zeta. destruct (set_saturation _ _ _ _) as [[x y] z]. destruct (set_luminocity _ _ _ _) as [[u v] w]. reflexivity.
  - unfold hsl_color_baseline. cbv zeta. destruct (set_luminocity _ _ _ _) as [[u v] w]. reflexivity.
  - unfold hsl_luminosity_baseline. cbv zeta. destruct (set_luminocity _ _ _ _) as [[u v] w]. reflexivity.
Qed.
Lemma spread_byte r g b : is_byte r -> is_byte g -> is_byte b -> is_byte (hi r g b - lo r g b).
Proof. unfold is_byte, lo, hi. lia. Qed.
Lemma hsl_floats_tri m back front : hsl m -> is_px back -> is_px front ->
  let '(c, l) := recoloured ase_set_sat m (rgb_of back) (rgb_of front) in tri (hsl_floats m back front) c l.
Proof.
  intros Hm (B1 & B2 & B3 & _) (F1 & F2 & F3 & _). destruct m; try contradiction; cbn [recoloured hsl_floats]; unfold rgb_of.
  - rewrite saturation_int by assumption. apply saturated_tri; try assumption; [now apply spread_byte|apply sat_int|reflexivity].
  - rewrite saturation_int by assumption. apply saturated_tri; try assumption; [now apply spread_byte|apply sat_int|reflexivity].
  - apply bytes_tri; try assumption. reflexivity.
  - apply bytes_tri; try assumption. reflexivity.
Qed.

Lemma hsl_channels m back front : hsl m -> is_px back -> is_px front ->
  exists p, is_px p /\ pa p = (256 - pa front) mod 256 /\ unscaled m back front p /\
    forall c, debug c = false -> exists f, blend_mode_to_blend_fn c m = Ok f /\
       forall o, is_byte o -> f back front o = Ok (blend_px back front p o).
Proof.
  intros Hm Hb Hf. pose proof (hsl_floats_tri m back front Hm Hb Hf) as T.
  destruct (hsl_floats m back front) as [[x y] z] eqn:EF.
  exists (mkpx (to_byte x) (to_byte y) (to_byte z) (as_u8 (hsl_alpha (pa front)))).
  assert (Hp : is_px (mkpx (to_byte x) (to_byte y) (to_byte z) (as_u8 (hsl_alpha (pa front))))).
  { split; [|split; [|split]]; apply as_u8_byte. }
  split; [exact Hp|]. split.
  { cbn [pa mkpx]. rewrite hsl_alpha_eq by apply Hf. unfold as_u8. clear.
    replace (pa front * 255) with (- pa front + pa front * 256) by ring. rewrite Z.mod_add by lia.
    replace (256 - pa front) with (- pa front + 1 * 256) by ring. now rewrite Z.mod_add by lia. }
  split.
  { unfold unscaled. destruct (recoloured _ _ _ _) as [c l]. unfold tri in T. cbn [pr pg pb mkpx]. exact T. }
  intros c Hc. destruct (hsl_floats_shape m back front c Hm) as (g & E & G). exists (blender c g). split; [exact E|].
  intros o Ho. apply blender_eq; try assumption. intros _. rewrite G, EF. unfold px_from_f64, px_from_i32. rewrite Hc. reflexivity.
Qed.

(** ** C71 *)
Lemma hsl_over_opaque m back front : hsl m -> is_px back -> is_px front -> pa back = 255 ->
  exists p, is_px p /\ pa p = (256 - pa front) mod 256 /\ unscaled m back front p /\
    forall c, debug c = false -> exists f, blend_mode_to_blend_fn c m = Ok f /\
      forall o, is_byte o -> f back front o = normal c back p o.
Proof.
  intros Hm Hb Hf Ab. destruct (hsl_channels m back front Hm Hb Hf) as (p & Hp & Ep & U & HR). exists p.
  do 3 (split; [assumption|]). intros c Hc. destruct (HR c Hc) as (f & E & G). exists f. split; [exact E|].
  intros o Ho. rewrite (G o Ho), normal_eq by assumption. f_equal. unfold blend_px. rewrite Ab. cbn [Z.eqb].
  pose proof (normal_px_alpha_255 back front o Ab Hf Ho) as A1. pose proof (normal_px_alpha_255 back p o Ab Hp Ho) as A2.
  pose proof (normal_px_byte _ _ _ Hb Hf Ho) as H1. pose proof (normal_px_byte _ _ _ Hb Hp Ho) as H2.
  rewrite (merge_px_same_alpha (normal_px back front o)) by congruence.
  destruct H1 as (B1 & B2 & B3 & B4), H2 as (C1 & C2 & C3 & C4). rewrite !mix_255 by assumption.
  rewrite A1, <- A2, <- px_eta. apply merge_px_same. lia.
Qed.

Lemma faint_channel bk ft fa : is_byte bk -> is_byte ft -> 0 <= fa <= 1 -> Z.abs (over_channel bk ft fa 255 - bk) <= 1.
Proof.
  unfold is_byte, over_channel. intros Hb Hf Ha. replace (bk + _ - bk) with (Z.quot ((ft - bk) * fa) 255) by ring.
  assert (H : -255 <= (ft - bk) * fa <= 255) by nia.
  pose proof (Z.quot_le_mono (-255) ((ft - bk) * fa) 255 ltac:(lia) ltac:(lia)) as L.
  pose proof (Z.quot_le_mono ((ft - bk) * fa) 255 255 ltac:(lia) ltac:(lia)) as U.
  change (Z.quot (-255) 255) with (-1) in L. change (Z.quot 255 255) with 1 in U. lia.
Qed.
Lemma hsl_faint m back front o : hsl m -> is_px back -> is_px front -> is_byte o -> pa back = 255 -> pa front = 255 ->
  forall c, debug c = false -> exists f r, blend_mode_to_blend_fn c m = Ok f /\ f back front o = Ok r /\
    Z.abs (pr r - pr back) <= 1 /\ Z.abs (pg r - pg back) <= 1 /\ Z.abs (pb r - pb back) <= 1 /\ pa r = 255.
Proof.
  intros Hm Hb Hf Ho Ab Af c Hc. destruct (hsl_over_opaque m back front Hm Hb Hf Ab) as (p & Hp & Ep & _ & H).
  destruct (H c Hc) as (f & E & G). rewrite Af in Ep. change ((256 - 255) mod 256) with 1 in Ep.
  exists f, (normal_px back p o). split; [exact E|]. split; [rewrite (G o Ho); now apply normal_eq|].
  pose proof (normal_px_alpha_255 back p o Ab Hp Ho) as A. unfold normal_px in *. rewrite Ab, Ep in *. cbn [Z.eqb] in *.
  set (fa := div255 (1 * o)) in *.
  assert (Hfa : 0 <= fa <= 1).
  { pose proof (div255_rounded (1 * o) ltac:(unfold is_byte in Ho; lia)) as R. fold fa in R. unfold rounded, is_byte in *. lia. }
  cbn [pa mkpx] in A. rewrite A. cbn [pr pg pb pa mkpx]. destruct Hb as (B1 & B2 & B3 & _), Hp as (P1 & P2 & P3 & _).
  repeat split; now apply faint_channel.
Qed.

Lemma wrapped_zero x t : (x == 0)%Q -> wrapped_byte x t -> t = 0.
Proof.
  intros E (w & Hw & ->). assert (T : trunc_of 0 w).
  { rewrite E in Hw. change (iq 0) with 0%Q. destruct (Qlt_le_dec w 0); [right|left]; change (iq 0) with 0%Q; lra. }
  apply trunc_towards in T. rewrite <- T. reflexivity.
Qed.
Lemma black_lum_px p : pr p = 0 -> pg p = 0 -> pb p = 0 -> (w3c_lum (rgb_of p) == 0)%Q.
Proof. intros A B C. unfold rgb_of. rewrite A, B, C. reflexivity. Qed.
Lemma set_lum_black r g b l : (l == 0)%Q -> (min3 (r, g, b) < max3 (r, g, b))%Q ->
  let '(x, y, z) := w3c_set_lum 1 (r, g, b) l in (x == 0 /\ y == 0 /\ z == 0)%Q.
Proof.
  intros E H. pose proof (set_lum_closed r g b l) as CF. cbv zeta in CF. pose proof (extremes r g b) as (X1 & X2). cbv zeta in *.
  set (L := w3c_lum (r, g, b)) in *. set (n := min3 (r, g, b)) in *. set (x := max3 (r, g, b)) in *.
  assert (G : forall v, (l + raised (lowered (v - L) l (L - n)) l (x - L) == 0)%Q).
  { intro v. assert (K : (lowered (v - L) l (L - n) == 0)%Q).
    { unfold lowered. pose proof (Qltb_spec (l - (L - n)) 0) as S. destruct (Qltb _ _); [|lra]. rewrite E. unfold Qdiv. ring. }
    unfold raised. destruct (Qltb 1 _); [rewrite K, E; unfold Qdiv; ring|lra]. }
  destruct (w3c_set_lum 1 (r, g, b) l) as [[x' y'] z']. destruct CF as (-> & -> & ->). auto.
Qed.
Lemma hsl_black m back front : hsl m -> is_px back -> is_px front -> pa back = 255 ->
  (let p := match m with BLuminosity => front | _ => back end in pr p = 0 /\ pg p = 0 /\ pb p = 0) ->
  forall c, debug c = false -> exists f, blend_mode_to_blend_fn c m = Ok f /\
    forall o, is_byte o -> f back front o = normal c back (mkpx 0 0 0 ((256 - pa front) mod 256)) o.
Proof.
  intros Hm Hb Hf Ab HZ c Hc. destruct (hsl_over_opaque m back front Hm Hb Hf Ab) as (p & Hp & Ep & U & H).
  destruct (H c Hc) as (f & E & G). exists f. split; [exact E|]. intros o Ho. rewrite (G o Ho). f_equal.
  assert (L0 : (snd (recoloured ase_set_sat m (rgb_of back) (rgb_of front)) == 0)%Q).
  { cbv zeta in HZ. destruct m; try contradiction; cbn [recoloured snd]; apply black_lum_px; apply HZ. }
  unfold unscaled in U. destruct (recoloured _ _ _ _) as [[[r g] b] l]. cbn [snd] in L0.
  assert (Z0 : pr p = 0 /\ pg p = 0 /\ pb p = 0).
  { pose proof (Qltb_spec (min3 (r, g, b)) (max3 (r, g, b))) as S. destruct (Qltb _ _).
    - pose proof (set_lum_black r g b l L0 S) as K. destruct (w3c_set_lum 1 _ _) as [[x y] z]. destruct K as (K1 & K2 & K3), U as (U1 & U2 & U3).
      split; [exact (wrapped_zero x _ K1 U1)|]. split; [exact (wrapped_zero y _ K2 U2)|exact (wrapped_zero z _ K3 U3)].
    - destruct U as (U1 & U2 & U3). assert (pr p = 0); [|lia]. destruct U3 as [U3|[U3 _]]; [|lra].
      eapply wrapped_zero; [|exact U3]. rewrite Q.min_l; [exact L0|lra]. }
  destruct Z0 as (Z1 & Z2 & Z3). rewrite (px_eta p), Z1, Z2, Z3, Ep. reflexivity.
Qed.

(** Witnesses *)
Lemma hsl_off m : hsl m -> forall c, debug c = false ->
  exists f, blend_mode_to_blend_fn c m = Ok f /\
    f (mkpx 200 100 50 255) (mkpx 10 20 30 255) 255 = Ok (mkpx 200 100 50 255) /\
    let '(w, _, _) := w3c_hsl m (mkpx 200 100 50 255) (mkpx 10 20 30 255) in
    let '(a, _, _) := ase_hsl m (mkpx 200 100 50 255) (mkpx 10 20 30 255) in far 60 w 200 /\ far 60 a 200.
Proof.
  intros Hm [d u] Hc. cbn [debug] in Hc. subst d.
  destruct m; try contradiction; eexists; (split; [reflexivity|]); (split; [vm_compute; reflexivity|]); vm_compute; split; right; reflexivity.
Qed.
