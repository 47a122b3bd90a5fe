(** Comparison, truncation and error bounds for floats with bounded values. *)
From Coq Require Import QArith Qpower Qabs Qround Qminmax Lqa.
From Verif.Model Require Import Blend.
From Verif.Spec Require Import Bytes.
From Verif.Proofs Require Import FloatFacts.
From Coq Require Import Floats.SpecFloat.
Local Open Scope Z_scope.

(** ** Comparison *)
Lemma canon_lt s1 m1 e1 s2 m2 e2 : canon (S754_finite s1 m1 e1) -> canon (S754_finite s2 m2 e2) -> e1 < e2 ->
  (inject_Z (Z.pos m1) * p2 e1 < inject_Z (Z.pos m2) * p2 e2)%Q.
Proof.
  cbn [canon]. rewrite !fexp_eq. intros C1 C2 H.
  pose proof (located_lower (Z.pos m2) e2 loc_Exact (inject_Z (Z.pos m2) * p2 e2) ltac:(lia) ltac:(now apply located_exact)) as L.
  eapply Qlt_le_trans; [|exact L].
  destruct (digits_bounds (Z.pos m1) ltac:(lia)) as [_ U]. pose proof (digits_nonneg (Z.pos m1)).
  assert (H1 : (inject_Z (Z.pos m1) < p2 (Zdigits2 (Z.pos m1)))%Q) by (rewrite p2_Z by assumption; now rewrite <- Zlt_Qlt).
  pose proof (p2_pos e1).
  apply (Qlt_le_trans _ (p2 (Zdigits2 (Z.pos m1)) * p2 e1)); [now apply Qmult_lt_compat_r|].
  rewrite <- p2_add. apply p2_le. lia.
Qed.
Lemma same_exp m1 m2 e : (inject_Z (Z.pos m1) * p2 e < inject_Z (Z.pos m2) * p2 e)%Q <-> Z.pos m1 < Z.pos m2.
Proof.
  rewrite Zlt_Qlt. split; intro H.
  - apply Qmult_lt_r in H; [exact H|apply p2_pos].
  - apply Qmult_lt_compat_r; [apply p2_pos|exact H].
Qed.
Lemma mag_pos m e : (0 < inject_Z (Z.pos m) * p2 e)%Q.
Proof. apply Qmult_lt_0_compat; [reflexivity|apply p2_pos]. Qed.

Lemma fcompare_ok x y : flt x -> flt y ->
  match SFcompare x y with
  | Some Lt => (fval x < fval y)%Q
  | Some Eq => (fval x == fval y)%Q
  | Some Gt => (fval y < fval x)%Q
  | None => False
  end.
Proof.
  intros [Fx Cx] [Fy Cy].
  destruct x as [sx|sx| |sx mx ex]; try contradiction; destruct y as [sy|sy| |sy my ey]; try contradiction; cbn [SFcompare fval].
  - reflexivity.
  - pose proof (mag_pos my ey). destruct sy; cbn [sign]; lra.
  - pose proof (mag_pos mx ex). destruct sx; cbn [sign]; lra.
  - pose proof (mag_pos my ey). pose proof (mag_pos mx ex).
    destruct sx, sy; cbn [sign]; try lra.
    + destruct (Z.compare_spec ex ey) as [->|L|L].
      * change (Pos.compare_cont Eq mx my) with (Pos.compare mx my). destruct (Pos.compare_spec mx my) as [->|M|M]; cbn [CompOpp].
        -- reflexivity.
        -- assert (inject_Z (Z.pos mx) * p2 ey < inject_Z (Z.pos my) * p2 ey)%Q by (apply same_exp; lia). lra.
        -- assert (inject_Z (Z.pos my) * p2 ey < inject_Z (Z.pos mx) * p2 ey)%Q by (apply same_exp; lia). lra.
      * pose proof (canon_lt _ _ _ _ _ _ Cx Cy L). lra.
      * pose proof (canon_lt _ _ _ _ _ _ Cy Cx L). lra.
    + destruct (Z.compare_spec ex ey) as [->|L|L].
      * change (Pos.compare_cont Eq mx my) with (Pos.compare mx my). destruct (Pos.compare_spec mx my) as [->|M|M].
        -- reflexivity.
        -- apply same_exp; lia.
        -- apply same_exp; lia.
      * exact (canon_lt _ _ _ _ _ _ Cx Cy L).
      * exact (canon_lt _ _ _ _ _ _ Cy Cx L).
Qed.
Lemma fltb_ok x y : flt x -> flt y -> if fltb x y then (fval x < fval y)%Q else (fval y <= fval x)%Q.
Proof.
  intros Hx Hy. pose proof (fcompare_ok x y Hx Hy) as H. unfold fltb, SFltb.
  destruct (SFcompare x y) as [[]|]; [lra|exact H|lra|contradiction].
Qed.
Lemma flt_not_nan x : flt x -> is_nan x = false.
Proof. intros [F _]. now destruct x. Qed.
Lemma fmin_ok x y : flt x -> flt y -> flt (fmin x y) /\ (fval (fmin x y) == Qmin (fval x) (fval y))%Q.
Proof.
  intros Hx Hy. unfold fmin. rewrite (flt_not_nan x), (flt_not_nan y) by assumption.
  pose proof (fltb_ok y x Hy Hx) as H. destruct (fltb y x); (split; [assumption|]).
  - rewrite Q.min_r; [reflexivity|lra].
  - rewrite Q.min_l; [reflexivity|lra].
Qed.
Lemma fmax_ok x y : flt x -> flt y -> flt (fmax x y) /\ (fval (fmax x y) == Qmax (fval x) (fval y))%Q.
Proof.
  intros Hx Hy. unfold fmax. rewrite (flt_not_nan x), (flt_not_nan y) by assumption.
  pose proof (fltb_ok x y Hx Hy) as H. destruct (fltb x y); (split; [assumption|]).
  - rewrite Q.max_r; [reflexivity|lra].
  - rewrite Q.max_l; [reflexivity|lra].
Qed.

(** ** Truncation *)
Definition trunc_of (t : Z) (w : Q) : Prop :=
  (0 <= w /\ inject_Z t <= w < inject_Z t + 1)%Q \/ (w <= 0 /\ inject_Z t - 1 < w <= inject_Z t)%Q.
Lemma f_trunc_ok x : flt x -> trunc_of (f_trunc x) (fval x).
Proof.
  intros [F _]. destruct x as [s|s| |s m e]; try contradiction; cbn [f_trunc fval].
  { left. change (inject_Z 0) with 0%Q. lra. }
  assert (H : (inject_Z (if 0 <=? e then Z.pos m * 2 ^ e else Z.pos m / 2 ^ (- e)) <= inject_Z (Z.pos m) * p2 e <
    inject_Z (if 0 <=? e then Z.pos m * 2 ^ e else Z.pos m / 2 ^ (- e)) + 1)%Q).
  { destruct (Z.leb_spec 0 e).
    - rewrite p2_Z by assumption. rewrite <- inject_Z_mult. lra.
    - assert (P : 0 < 2 ^ (- e)) by (apply Z.pow_pos_nonneg; lia).
      pose proof (Z.div_mod (Z.pos m) (2 ^ (- e)) ltac:(lia)) as D. pose proof (Z.mod_pos_bound (Z.pos m) (2 ^ (- e)) P) as B.
      set (q := Z.pos m / 2 ^ (- e)) in *. set (r := Z.pos m mod 2 ^ (- e)) in *.
      assert (E1 : (p2 e * inject_Z (2 ^ (- e)) == 1)%Q).
      { rewrite <- p2_Z by lia. rewrite <- p2_add. replace (e + - e) with 0 by lia. reflexivity. }
      assert (EQ : (inject_Z (Z.pos m) * p2 e == inject_Z q + inject_Z r * p2 e)%Q).
      { rewrite D, inject_Z_plus, inject_Z_mult. rewrite Qmult_plus_distr_l.
        setoid_replace (inject_Z (2 ^ (- e)) * inject_Z q * p2 e)%Q with (inject_Z q * (p2 e * inject_Z (2 ^ (- e))))%Q by ring.
        rewrite E1. ring. }
      rewrite EQ. pose proof (p2_pos e).
      assert (0 <= inject_Z r * p2 e)%Q by (apply Qmult_le_0_compat; [change 0%Q with (inject_Z 0); rewrite <- Zle_Qle; lia|lra]).
      assert (inject_Z r * p2 e < 1)%Q.
      { rewrite <- E1, (Qmult_comm (p2 e)). apply Qmult_lt_compat_r; [assumption|]. rewrite <- Zlt_Qlt. lia. }
      lra. }
  pose proof (mag_pos m e). destruct s; cbn [sign].
  - right. rewrite inject_Z_opp. lra.
  - left. lra.
Qed.
Lemma f_as_i32_ok x : flt x -> (Qabs (fval x) <= inject_Z (2 ^ 30))%Q -> trunc_of (f_as_i32 x) (fval x).
Proof.
  intros H B. pose proof (f_trunc_ok x H) as T. apply Qabs_Qle_condition in B.
  replace (f_as_i32 x) with (f_trunc x); [exact T|].
  assert (R : -2 ^ 31 <= f_trunc x <= 2 ^ 31 - 1).
  { assert (inject_Z (- 2 ^ 31) <= inject_Z (f_trunc x) /\ inject_Z (f_trunc x) <= inject_Z (2 ^ 31 - 1))%Q.
    { change (inject_Z (2 ^ 30)) with (1073741824#1) in B. change (inject_Z (- 2 ^ 31)) with (-2147483648#1).
      change (inject_Z (2 ^ 31 - 1)) with (2147483647#1). destruct T as [T|T]; lra. }
    rewrite <- !Zle_Qle in H0. exact H0. }
  destruct H as [F _]. unfold f_as_i32, f_cast. destruct x; try contradiction; lia.
Qed.

(** ** Errors *)
Definition near (x : f64) (v e : Q) : Prop := flt x /\ (- e <= fval x - v <= e)%Q.
Lemma near_weaken x v e f : near x v e -> (e <= f)%Q -> near x v f.
Proof. intros [F H] L. split; [exact F|lra]. Qed.
Lemma near_eq x v w e : (v == w)%Q -> near x v e -> near x w e.
Proof. intros E [F H]. split; [exact F|]. rewrite <- E. exact H. Qed.
(** One rounding of a value of at most [B]. *)
Definition ulp : Q := 1 # 4503599627370496.
Lemma p2_ulp : (p2 (-53) == (1#2) * ulp)%Q.
Proof. reflexivity. Qed.
Lemma rounds_near r x B : rounds r x -> (1 <= B)%Q -> (- B <= x <= B)%Q -> near r x (B * ulp).
Proof.
  intros (F & E & _) HB Hx. split; [exact F|]. apply Qabs_Qle_condition. eapply Qle_trans; [exact E|].
  assert (H : (Qabs x <= B)%Q) by now apply Qabs_Qle_condition.
  rewrite p2_ulp. assert (S : (p2 (-1075) <= (1#2) * ulp)%Q) by (rewrite <- p2_ulp; apply p2_le; lia).
  assert (P : (0 < ulp)%Q) by reflexivity. nra.
Qed.
Lemma near_big x v e : near x v e -> (- (p2 399) <= v <= p2 399)%Q -> (e <= 1)%Q -> (Qabs (fval x) <= big)%Q.
Proof.
  intros [_ H] Hv He. apply Qabs_Qle_condition. unfold big. change 400 with (399 + 1). rewrite p2_succ.
  assert (p2 0 <= p2 399)%Q by (apply p2_le; lia). change (p2 0) with 1%Q in H0. lra.
Qed.
Lemma small_399 B : (B <= 1000000000)%Q -> (B <= p2 399)%Q.
Proof. intro H. eapply Qle_trans; [exact H|]. apply (Qle_trans _ (p2 30)); [discriminate|apply p2_le; lia]. Qed.

Lemma near_add x y v w e f B : near x v e -> near y w f -> (-500000000 <= v <= 500000000)%Q -> (-500000000 <= w <= 500000000)%Q ->
  (e <= 1)%Q -> (f <= 1)%Q -> (1 <= B)%Q -> (- B + e + f <= v + w <= B - e - f)%Q -> near (fadd x y) (v + w) (e + f + B * ulp).
Proof.
  intros Hx Hy Hv Hw He Hf HB HR. pose proof (small_399 500000000 ltac:(discriminate)) as S.
  assert (Bx : (Qabs (fval x) <= big)%Q) by (eapply near_big; [exact Hx|lra..]).
  assert (By : (Qabs (fval y) <= big)%Q) by (eapply near_big; [exact Hy|lra..]).
  destruct Hx as [Fx Hx], Hy as [Fy Hy].
  destruct (rounds_near _ _ B (fadd_ok x y Fx Fy Bx By) HB ltac:(lra)) as [F R].
  split; [exact F|]. lra.
Qed.
Lemma near_sub x y v w e f B : near x v e -> near y w f -> (-500000000 <= v <= 500000000)%Q -> (-500000000 <= w <= 500000000)%Q ->
  (e <= 1)%Q -> (f <= 1)%Q -> (1 <= B)%Q -> (- B + e + f <= v - w <= B - e - f)%Q -> near (fsub x y) (v - w) (e + f + B * ulp).
Proof.
  intros Hx Hy Hv Hw He Hf HB HR. pose proof (small_399 500000000 ltac:(discriminate)) as S.
  assert (Bx : (Qabs (fval x) <= big)%Q) by (eapply near_big; [exact Hx|lra..]).
  assert (By : (Qabs (fval y) <= big)%Q) by (eapply near_big; [exact Hy|lra..]).
  destruct Hx as [Fx Hx], Hy as [Fy Hy].
  destruct (rounds_near _ _ B (fsub_ok x y Fx Fy Bx By) HB ltac:(lra)) as [F R].
  split; [exact F|]. lra.
Qed.
Lemma prod_bound a b A B : (- A <= a <= A)%Q -> (- B <= b <= B)%Q -> (- (A * B) <= a * b <= A * B)%Q.
Proof. intros. split; nra. Qed.
Lemma near_mul x y v w e f V W B : near x v e -> near y w f -> (- V <= v <= V)%Q -> (- W <= w <= W)%Q ->
  (V <= 500000000)%Q -> (W <= 500000000)%Q -> (e <= 1)%Q -> (f <= 1)%Q -> (1 <= B)%Q -> ((V + e) * (W + f) <= B)%Q ->
  near (fmul x y) (v * w) (e * (W + f) + V * f + B * ulp).
Proof.
  intros Hx Hy Hv Hw LV LW He Hf HB HR. pose proof (small_399 500000000 ltac:(discriminate)) as S.
  assert (Bx : (Qabs (fval x) <= big)%Q) by (eapply near_big; [exact Hx|lra..]).
  assert (By : (Qabs (fval y) <= big)%Q) by (eapply near_big; [exact Hy|lra..]).
  destruct Hx as [Fx Hx], Hy as [Fy Hy].
  pose proof (prod_bound (fval x) (fval y) (V + e) (W + f) ltac:(lra) ltac:(lra)) as P.
  destruct (rounds_near _ _ B (fmul_ok x y Fx Fy Bx By) HB ltac:(lra)) as [F R].
  split; [exact F|].
  pose proof (prod_bound (fval x - v) (fval y) e (W + f) ltac:(lra) ltac:(lra)) as P1.
  pose proof (prod_bound v (fval y - w) V f ltac:(lra) ltac:(lra)) as P2.
  assert (E : (fval x * fval y - v * w == (fval x - v) * fval y + v * (fval y - w))%Q) by ring.
  lra.
Qed.
Lemma Qabs_lower b m : (m <= b \/ b <= - m)%Q -> (m <= Qabs b)%Q.
Proof. apply Qabs_case; lra. Qed.
Lemma near_div x y v w e f V W m D B : near x v e -> near y w f -> (- V <= v <= V)%Q -> (- W <= w <= W)%Q ->
  (V <= 500000000)%Q -> (W <= 500000000)%Q -> (e <= 1)%Q -> (f <= 1)%Q -> (1 <= B)%Q ->
  (1#1000 <= m)%Q -> (f <= (1#2) * m)%Q -> (m <= w \/ w <= - m)%Q -> (- D <= v / w <= D)%Q ->
  (D + 2 * (e + D * f) / m <= B)%Q ->
  near (fdiv x y) (v / w) (2 * (e + D * f) / m + B * ulp).
Proof.
  intros Hx Hy Hv Hw LV LW He Hf HB Hm Hfm Lw HD HR. pose proof (small_399 500000000 ltac:(discriminate)) as S.
  assert (Bx : (Qabs (fval x) <= big)%Q) by (eapply near_big; [exact Hx|lra..]).
  assert (By : (Qabs (fval y) <= big)%Q) by (eapply near_big; [exact Hy|lra..]).
  destruct Hx as [Fx Hx], Hy as [Fy Hy].
  assert (LY : ((1#2) * m <= fval y \/ fval y <= - ((1#2) * m))%Q) by (destruct Lw; [left|right]; lra).
  assert (LB : (p2 (-400) <= Qabs (fval y))%Q).
  { eapply Qle_trans; [|apply Qabs_lower; exact LY]. apply (Qle_trans _ (p2 (-20))); [apply p2_le; lia|].
    assert (p2 (-20) <= 1#2000)%Q by discriminate. lra. }
  assert (NY : (~ fval y == 0)%Q) by (destruct LY; lra).
  assert (NW : (~ w == 0)%Q) by (destruct Lw; lra).
  assert (E : (fval x / fval y - v / w == ((fval x - v) - (v / w) * (fval y - w)) / fval y)%Q) by (field; auto).
  assert (H : (Qabs (fval x / fval y - v / w) <= 2 * (e + D * f) / m)%Q).
  { rewrite E. unfold Qdiv at 1. rewrite Qabs_Qmult, Qabs_Qinv.
    assert (A : (Qabs (fval x - v - v / w * (fval y - w)) <= e + D * f)%Q).
    { apply Qabs_Qle_condition. pose proof (prod_bound (v / w) (fval y - w) D f ltac:(lra) ltac:(lra)). lra. }
    pose proof (Qabs_lower _ _ LY) as LA. set (Y := Qabs (fval y)) in *.
    change (Qabs (fval x - v - v / w * (fval y - w)) / Y <= 2 * (e + D * f) / m)%Q.
    apply Qle_shift_div_r; [lra|].
    pose proof (Qabs_nonneg (fval x - v - v / w * (fval y - w))).
    setoid_replace (2 * (e + D * f) / m * Y)%Q with ((e + D * f) * (2 * Y / m))%Q by (field; lra).
    assert (1 <= 2 * Y / m)%Q by (apply Qle_shift_div_l; lra). nra. }
  apply Qabs_Qle_condition in H.
  destruct (rounds_near _ _ B (fdiv_ok x y Fx Fy Bx LB By) HB ltac:(lra)) as [F R].
  split; [exact F|]. lra.
Qed.

(** ** Constants *)
Lemma f_of_Z_near n : Z.abs n < 2 ^ 53 -> near (f_of_Z n) (inject_Z n) 0.
Proof.
  intro H. assert (L : (Qabs (inject_Z n) < p2 53)%Q).
  { change (Qabs (inject_Z n)) with (inject_Z (Z.abs n)). rewrite p2_Z by lia. now rewrite <- Zlt_Qlt. }
  destruct (binary_normalize_ok n 0 false (inject_Z n)) as (F & _ & X).
  - change (p2 0) with 1%Q. ring.
  - apply Qlt_le_weak. eapply Qlt_le_trans; [exact L|]. apply p2_le. lia.
  - split; [exact F|]. unfold f_of_Z. rewrite (X n 0); [lra|lia|exact L|]. change (p2 0) with 1%Q. ring.
Qed.
