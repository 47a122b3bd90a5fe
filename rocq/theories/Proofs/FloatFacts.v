(** The floating point operations of SpecFloat round to nearest: facts about the
    rational value of their results. *)
From Coq Require Import QArith Qpower Qabs Lqa.
From Verif.Model Require Import Blend.
From Verif.Spec Require Import Bytes.
From Coq Require Import Floats.SpecFloat.
Local Open Scope Z_scope.

(** ** Powers of two *)
Definition p2 (e : Z) : Q := Qpower 2 e.
Lemma p2_pos e : (0 < p2 e)%Q.
Proof. apply Qpower_0_lt. reflexivity. Qed.
Lemma p2_add a b : (p2 (a + b) == p2 a * p2 b)%Q.
Proof. apply Qpower_plus. discriminate. Qed.
Lemma p2_le a b : a <= b -> (p2 a <= p2 b)%Q.
Proof. intro. apply Qpower_le_compat_l; [assumption|discriminate]. Qed.
Lemma p2_Z n : 0 <= n -> (p2 n == inject_Z (2 ^ n))%Q.
Proof. intro. unfold p2. now rewrite Zpower_Qpower by assumption. Qed.
Lemma p2_succ e : (p2 (e + 1) == 2 * p2 e)%Q.
Proof. rewrite p2_add. change (p2 1) with (2#1). ring. Qed.
Lemma p2_pred e : (p2 (e - 1) == (1#2) * p2 e)%Q.
Proof. unfold Z.sub. rewrite p2_add. change (p2 (-(1))) with (1#2). ring. Qed.

(** ** Digits *)
Lemma digits_pos_bounds m : 2 ^ (Z.pos (digits2_pos m) - 1) <= Z.pos m < 2 ^ Z.pos (digits2_pos m).
Proof.
  induction m as [m IH|m IH|]; cbn [digits2_pos]; [| |lia].
  all: rewrite Pos2Z.inj_succ; replace (Z.succ (Z.pos (digits2_pos m)) - 1) with (Z.pos (digits2_pos m)) by lia;
    rewrite Z.pow_succ_r by lia;
    replace (2 ^ Z.pos (digits2_pos m)) with (2 * 2 ^ (Z.pos (digits2_pos m) - 1)) in *
      by (rewrite <- Z.pow_succ_r by lia; f_equal; lia); lia.
Qed.
Lemma digits_bounds m : 0 < m -> 2 ^ (Zdigits2 m - 1) <= m < 2 ^ Zdigits2 m.
Proof. destruct m; [lia| |lia]. intros _. apply digits_pos_bounds. Qed.
Lemma digits_nonneg m : 0 <= Zdigits2 m.
Proof. destruct m; cbn; lia. Qed.
Lemma digits_pos m : 0 < m -> 0 < Zdigits2 m.
Proof. destruct m; cbn; lia. Qed.
(** Fewer digits, more digits *)
Lemma digits_le m n : 0 <= m -> 0 <= n -> m < 2 ^ n -> Zdigits2 m <= n.
Proof.
  intros Hm Hn H. destruct (Z.eq_dec m 0) as [->|]; [cbn; lia|].
  destruct (digits_bounds m ltac:(lia)) as [B _]. pose proof (digits_pos m ltac:(lia)).
  assert (2 ^ (Zdigits2 m - 1) < 2 ^ n) by lia. apply Z.pow_lt_mono_r_iff in H1; lia.
Qed.
Lemma digits_ge m n : 0 <= n -> 2 ^ n <= m -> n < Zdigits2 m.
Proof.
  intros Hn H. assert (0 < 2 ^ n) by (apply Z.pow_pos_nonneg; lia).
  destruct (digits_bounds m ltac:(lia)) as [_ B]. apply (Z.pow_lt_mono_r_iff 2); [lia|apply digits_nonneg|lia].
Qed.
Lemma digits_unique m d : 0 < d -> 2 ^ (d - 1) <= m < 2 ^ d -> Zdigits2 m = d.
Proof.
  intros Hd [H1 H2]. assert (0 < 2 ^ (d - 1)) by (apply Z.pow_pos_nonneg; lia).
  pose proof (digits_ge m (d - 1) ltac:(lia) H1). pose proof (digits_le m d ltac:(lia) ltac:(lia) H2). lia.
Qed.

(** ** Values *)
Definition sign (s : bool) (x : Q) : Q := if s then (- x)%Q else x.
Definition fval (x : f64) : Q :=
  match x with
  | S754_finite s m e => sign s (inject_Z (Z.pos m) * p2 e)
  | _ => 0%Q
  end.
Definition finite (x : f64) : Prop := match x with S754_zero _ | S754_finite _ _ _ => True | _ => False end.
Definition fexp53 := fexp prec emax.
Definition canon (x : f64) : Prop :=
  match x with
  | S754_finite _ m e => fexp53 (Zdigits2 (Z.pos m) + e) = e
  | _ => True
  end.
Lemma fexp_eq e : fexp53 e = Z.max (e - 53) (-1074).
Proof. reflexivity. Qed.

(** ** Rounding *)
(** [y] lies at [m], or in the lower or the upper half of the next unit. *)
Definition loc (m : Z) (l : location) (y : Q) : Prop :=
  match l with
  | loc_Exact => y == inject_Z m
  | loc_Inexact Lt => inject_Z m < y /\ y < inject_Z m + (1#2)
  | loc_Inexact Eq => y == inject_Z m + (1#2)
  | loc_Inexact Gt => inject_Z m + (1#2) < y /\ y < inject_Z m + 1
  end%Q.
Definition located (m e : Z) (l : location) (x : Q) : Prop := exists y, (x == y * p2 e)%Q /\ loc m l y.

Lemma loc_record m l : loc_of_shr_record (shr_record_of_loc m l) = l.
Proof. destruct l as [|[]]; reflexivity. Qed.
Lemma loc_record_m m l : shr_m (shr_record_of_loc m l) = m.
Proof. destruct l as [|[]]; reflexivity. Qed.

Lemma shr_1_ok r e x : 0 <= shr_m r -> located (shr_m r) e (loc_of_shr_record r) x ->
  located (shr_m (shr_1 r)) (e + 1) (loc_of_shr_record (shr_1 r)) x /\ shr_m (shr_1 r) = shr_m r / 2.
Proof.
  destruct r as [m r s]. cbn [shr_m]. intros Hm (y & Hx & Hl).
  assert (Hy : (x == (y * (1#2)) * p2 (e + 1))%Q) by (rewrite p2_succ, Hx; ring).
  destruct m as [|[m|m|]|]; [| | | |lia]; cbn [shr_1 shr_m].
  - split; [|reflexivity]. exists (y * (1#2))%Q. split; [exact Hy|].
    destruct r, s; cbn [loc_of_shr_record loc orb] in *; unfold inject_Z in *; lra.
  - split; [|rewrite Pos2Z.inj_xI; apply (Z.div_unique_pos _ _ _ 1); lia].
    exists (y * (1#2))%Q. split; [exact Hy|]. rewrite Pos2Z.inj_xI in Hl.
    destruct r, s; cbn [loc_of_shr_record loc orb] in *; rewrite inject_Z_plus, inject_Z_mult in Hl;
      change (inject_Z 1) with 1%Q in *; change (inject_Z 2) with (2#1)%Q in *; lra.
  - split; [|rewrite Pos2Z.inj_xO; apply (Z.div_unique_pos _ _ _ 0); lia].
    exists (y * (1#2))%Q. split; [exact Hy|]. rewrite Pos2Z.inj_xO in Hl.
    destruct r, s; cbn [loc_of_shr_record loc orb] in *; rewrite inject_Z_mult in Hl;
      change (inject_Z 2) with (2#1)%Q in *; lra.
  - split; [|reflexivity]. exists (y * (1#2))%Q. split; [exact Hy|].
    destruct r, s; cbn [loc_of_shr_record loc orb] in *; unfold inject_Z in *; lra.
Qed.

Lemma iter_shr n : forall r e x, 0 <= shr_m r -> located (shr_m r) e (loc_of_shr_record r) x ->
  let r' := iter_pos shr_1 n r in
  located (shr_m r') (e + Z.pos n) (loc_of_shr_record r') x /\ shr_m r' = shr_m r / 2 ^ Z.pos n.
Proof.
  induction n as [n IH|n IH|]; intros r e x Hm Hl; cbn [iter_pos].
  - destruct (shr_1_ok r e x Hm Hl) as [L1 M1].
    destruct (IH _ _ _ ltac:(rewrite M1; apply Z.div_pos; lia) L1) as [L2 M2].
    destruct (IH _ _ _ ltac:(rewrite M2, M1; apply Z.div_pos; [apply Z.div_pos|apply Z.pow_pos_nonneg]; lia) L2) as [L3 M3].
    split.
    + replace (e + Z.pos n~1) with (e + 1 + Z.pos n + Z.pos n) by lia. exact L3.
    + rewrite M3, M2, M1, !Z.div_div by (try apply Z.pow_pos_nonneg; try apply Z.pow_nonzero; lia). f_equal.
      replace (Z.pos n~1) with (1 + Z.pos n + Z.pos n) by lia. rewrite !Z.pow_add_r by lia. lia.
  - destruct (IH _ _ _ Hm Hl) as [L2 M2].
    destruct (IH _ _ _ ltac:(rewrite M2; apply Z.div_pos; [|apply Z.pow_pos_nonneg]; lia) L2) as [L3 M3].
    split.
    + replace (e + Z.pos n~0) with (e + Z.pos n + Z.pos n) by lia. exact L3.
    + rewrite M3, M2, !Z.div_div by (try apply Z.pow_pos_nonneg; try apply Z.pow_nonzero; lia). f_equal.
      replace (Z.pos n~0) with (Z.pos n + Z.pos n) by lia. rewrite !Z.pow_add_r by lia. lia.
  - exact (shr_1_ok r e x Hm Hl).
Qed.

Lemma shr_fexp_ok m e l x : 0 <= m -> located m e l x ->
  exists r e1, shr_fexp prec emax m e l = (r, e1) /\ e1 = Z.max e (fexp53 (Zdigits2 m + e)) /\
    located (shr_m r) e1 (loc_of_shr_record r) x /\ shr_m r = m / 2 ^ (e1 - e).
Proof.
  intros Hm Hl. unfold shr_fexp, shr. fold fexp53. destruct (fexp53 (Zdigits2 m + e) - e) as [|n|n] eqn:E.
  - do 2 eexists. split; [reflexivity|]. split; [lia|]. rewrite loc_record, loc_record_m. split; [assumption|].
    rewrite Z.sub_diag. cbn. now rewrite Z.div_1_r.
  - destruct (iter_shr n (shr_record_of_loc m l) e x) as [L M]; [rewrite loc_record_m; lia|now rewrite loc_record, loc_record_m|].
    do 2 eexists. split; [reflexivity|]. split; [lia|]. split; [exact L|]. rewrite M, loc_record_m. do 2 f_equal. lia.
  - do 2 eexists. split; [reflexivity|]. split; [lia|]. rewrite loc_record, loc_record_m. split; [assumption|].
    rewrite Z.sub_diag. cbn. now rewrite Z.div_1_r.
Qed.

Lemma round_ok m l y : loc m l y -> let q := round_nearest_even m l in
  (Qabs (inject_Z q - y) <= 1#2)%Q /\ (m = q \/ q = m + 1) /\
  (forall k, (y == inject_Z k)%Q -> q = k).
Proof.
  intros H q. subst q. destruct l as [|[]]; cbn [loc round_nearest_even] in *.
  - repeat split; [|now left|].
    + rewrite H. setoid_replace (inject_Z m - inject_Z m)%Q with 0%Q by ring. discriminate.
    + intros k E. rewrite H in E. apply eq_sym, (proj1 (inject_Z_injective _ _)). now symmetry.
  - destruct (Z.even m); (repeat split; [|(left; reflexivity) || (right; reflexivity)|]).
    + apply Qabs_Qle_condition. split; lra.
    + intros k E. exfalso. rewrite H in E. unfold Qeq in E. cbn in E. lia.
    + rewrite inject_Z_plus. apply Qabs_Qle_condition. change (inject_Z 1) with 1%Q. split; lra.
    + intros k E. exfalso. rewrite H in E. unfold Qeq in E. cbn in E. lia.
  - repeat split; [|now left|].
    + apply Qabs_Qle_condition. split; lra.
    + intros k E. exfalso. destruct H as [H1 H2]. rewrite E in H1, H2. rewrite <- Zlt_Qlt in H1.
      assert (inject_Z (m + 1) <= inject_Z k)%Q by (rewrite <- Zle_Qle; lia). rewrite inject_Z_plus in H.
      change (inject_Z 1) with 1%Q in H. lra.
  - repeat split; [|now right|].
    + rewrite inject_Z_plus. apply Qabs_Qle_condition. change (inject_Z 1) with 1%Q. split; lra.
    + intros k E. exfalso. destruct H as [H1 H2]. rewrite E in H1, H2.
      assert (inject_Z m < inject_Z k)%Q by lra. rewrite <- Zlt_Qlt in H.
      assert (inject_Z (m + 1) <= inject_Z k)%Q by (rewrite <- Zle_Qle; lia). rewrite inject_Z_plus in H0.
      change (inject_Z 1) with 1%Q in H0. lra.
Qed.

Lemma round_aux_ok sx m e l x : 0 <= m -> located m e l x -> Zdigits2 m + e <= 1000 -> e <= 900 ->
  let e1 := Z.max e (fexp53 (Zdigits2 m + e)) in
  let r := binary_round_aux prec emax sx m e l in
  finite r /\ (e <= fexp53 (Zdigits2 m + e) -> canon r) /\
  exists v, (fval r == sign sx v)%Q /\ (Qabs (v - x) <= p2 (e1 - 1))%Q /\
    (forall k, (x == inject_Z k * p2 e1)%Q -> (v == x)%Q).
Proof.
  intros Hm Hl Hd He e1 r. subst r. unfold binary_round_aux.
  destruct (shr_fexp_ok m e l x Hm Hl) as (r1 & e1' & -> & E1 & L1 & M1). fold e1 in E1. subst e1'.
  set (m' := shr_m r1) in *. set (q := round_nearest_even m' (loc_of_shr_record r1)).
  destruct L1 as (y & Hx & Hy). destruct (round_ok _ _ _ Hy) as (R1 & R2 & R3). fold q in R1, R2, R3.
  assert (Hee : e <= e1) by (subst e1; lia).
  assert (He1 : e1 = Z.max e (Z.max (Zdigits2 m + e - 53) (-1074))) by reflexivity.
  assert (Hm' : 0 <= m' < 2 ^ 53).
  { rewrite M1. split; [apply Z.div_pos; [lia|apply Z.pow_pos_nonneg; lia]|].
    apply Z.div_lt_upper_bound; [apply Z.pow_pos_nonneg; lia|]. rewrite <- Z.pow_add_r by lia.
    destruct (Z.eq_dec m 0) as [->|Hne]; [apply Z.pow_pos_nonneg; lia|].
    destruct (digits_bounds m ltac:(lia)) as [_ B].
    assert (2 ^ Zdigits2 m <= 2 ^ (e1 - e + 53)) by (apply Z.pow_le_mono_r; lia). lia. }
  assert (Hq : 0 <= q <= 2 ^ 53) by lia.
  destruct (shr_fexp_ok q e1 loc_Exact (inject_Z q * p2 e1)) as (r2 & e2 & -> & E2 & _ & M2);
    [lia|exists (inject_Z q); split; [reflexivity|cbn; reflexivity]|].
  assert (H2 : (e2 = e1 /\ shr_m r2 = q /\ q < 2 ^ 53) \/ (e2 = e1 + 1 /\ q = 2 ^ 53 /\ shr_m r2 = 2 ^ 52)).
  { rewrite fexp_eq in E2. destruct (Z.eq_dec q (2 ^ 53)) as [Eq|Nq].
    - right. assert (Zdigits2 q = 54) by (rewrite Eq; reflexivity). assert (H2 : e2 = e1 + 1) by lia.
      split; [exact H2|]. split; [exact Eq|]. rewrite M2, Eq, H2. replace (e1 + 1 - e1) with 1 by lia. reflexivity.
    - left. pose proof (digits_le q 53 ltac:(lia) ltac:(lia) ltac:(lia)). assert (H2 : e2 = e1) by lia.
      split; [exact H2|]. split; [|lia]. rewrite M2, H2, Z.sub_diag. cbn. apply Z.div_1_r. }
  assert (HV : (inject_Z (shr_m r2) * p2 e2 == inject_Z q * p2 e1)%Q).
  { destruct H2 as [(-> & -> & _)|(-> & -> & ->)]; [reflexivity|]. rewrite p2_succ.
    change (inject_Z (2 ^ 53)) with (inject_Z (2 ^ 52 * 2)). rewrite inject_Z_mult. change (inject_Z 2) with (2#1). ring. }
  assert (HE : (Qabs (inject_Z q * p2 e1 - x) <= p2 (e1 - 1))%Q).
  { assert (Heq : (inject_Z q * p2 e1 - x == (inject_Z q - y) * p2 e1)%Q) by (rewrite Hx; ring).
    rewrite Heq, Qabs_Qmult, (Qabs_pos (p2 e1)) by (apply Qlt_le_weak, p2_pos). rewrite p2_pred.
    apply Qmult_le_compat_r; [exact R1|apply Qlt_le_weak, p2_pos]. }
  assert (HX : forall k, (x == inject_Z k * p2 e1)%Q -> (inject_Z q * p2 e1 == x)%Q).
  { intros k Hk. rewrite Hk in Hx. assert (Hy' : (y == inject_Z k)%Q).
    { apply (Qmult_inj_r _ _ (p2 e1)); [pose proof (p2_pos e1); lra|]. now symmetry. }
    rewrite Hk. now rewrite (R3 k Hy'). }
  assert (HC : e <= fexp53 (Zdigits2 m + e) -> 0 < shr_m r2 -> fexp53 (Zdigits2 (shr_m r2) + e2) = e2).
  { intros Hle Hpos. destruct H2 as [(-> & E & Hlt)|(-> & _ & ->)].
    - rewrite E in *. rewrite fexp_eq in *. pose proof (digits_le q 53 ltac:(lia) ltac:(lia) Hlt).
      destruct (Z.eq_dec e1 (-1074)) as [->|Hn]; [lia|].
      assert (He1' : e1 = Zdigits2 m + e - 53) by lia.
      assert (2 ^ 52 <= m').
      { rewrite M1. apply Z.div_le_lower_bound; [apply Z.pow_pos_nonneg; lia|]. rewrite <- Z.pow_add_r by lia.
        destruct (Z.eq_dec m 0) as [->|Hne]; [cbn in He1'; lia|].
        destruct (digits_bounds m ltac:(lia)) as [B _]. replace (e1 - e + 52) with (Zdigits2 m - 1) by lia. exact B. }
      pose proof (digits_ge q 52 ltac:(lia) ltac:(lia)). lia.
    - rewrite fexp_eq. change (Zdigits2 (2 ^ 52)) with 53. lia. }
  assert (Hpos : 0 <= shr_m r2) by lia.
  assert (He2 : e2 <= 971) by lia.
  destruct (shr_m r2) as [|p|p] eqn:E; [| |lia].
  - split; [exact I|]. split; [intros _; exact I|]. exists (inject_Z q * p2 e1)%Q. split; [|split; assumption].
    cbn [fval]. change (inject_Z 0) with 0%Q in HV. destruct sx; cbn [sign]; rewrite <- HV; ring.
  - change (emax - prec) with 971. replace (e2 <=? 971) with true by lia. split; [exact I|]. split.
    + intro H. cbn [canon]. apply HC; [exact H|lia].
    + exists (inject_Z q * p2 e1)%Q. split; [|split; assumption]. cbn [fval]. destruct sx; cbn [sign]; now rewrite HV.
Qed.

(** The result differs from the exact one by at most one part in 2^53 (or 2^-1075). *)
Lemma round_aux_rel sx m e l x : 0 <= m -> located m e l x -> Zdigits2 m + e <= 1000 -> e <= 900 ->
  e <= fexp53 (Zdigits2 m + e) ->
  let r := binary_round_aux prec emax sx m e l in
  finite r /\ canon r /\
  exists v, (fval r == sign sx v)%Q /\ (Qabs (v - x) <= x * p2 (-53) + p2 (-1075))%Q /\
    (forall k E, Zdigits2 m + e <= E + 53 -> -1074 <= E -> (x == inject_Z k * p2 E)%Q -> (v == x)%Q).
Proof.
  intros Hm Hl Hd He Hc. destruct (round_aux_ok sx m e l x Hm Hl Hd He) as (F & C & v & V & B & X).
  split; [exact F|]. split; [exact (C Hc)|]. exists v. split; [exact V|]. split.
  - eapply Qle_trans; [exact B|]. set (e1 := Z.max _ _) in *.
    assert (He1 : e1 = Z.max (Zdigits2 m + e - 53) (-1074)) by (unfold e1; rewrite fexp_eq in *; lia).
    assert (Hx0 : (0 <= x)%Q).
    { destruct Hl as (y & -> & Hy). apply Qmult_le_0_compat; [|apply Qlt_le_weak, p2_pos].
      assert (0 <= inject_Z m)%Q by (change 0%Q with (inject_Z 0); rewrite <- Zle_Qle; lia).
      destruct l as [|[]]; cbn [loc] in Hy; lra. }
    assert (0 <= x * p2 (-53))%Q by (apply Qmult_le_0_compat; [exact Hx0|apply Qlt_le_weak, p2_pos]).
    pose proof (p2_pos (-1075)).
    destruct (Z.eq_dec e1 (-1074)) as [->|Hn]; [change (-1074 - 1) with (-1075); lra|].
    assert (E : e1 - 1 = (Zdigits2 m - 1 + e) + (-53)) by lia. rewrite E, p2_add.
    assert (p2 (Zdigits2 m - 1 + e) <= x)%Q.
    { destruct Hl as (y & -> & Hy). rewrite p2_add.
      destruct (Z.eq_dec m 0) as [->|Hne].
      { cbn [Zdigits2] in *. rewrite fexp_eq in *. lia. }
      apply Qmult_le_compat_r; [|apply Qlt_le_weak, p2_pos].
      destruct (digits_bounds m ltac:(lia)) as [L _]. pose proof (digits_pos m ltac:(lia)).
      rewrite p2_Z by lia. rewrite Zle_Qle in L. destruct l as [|[]]; cbn [loc] in Hy; lra. }
    assert (p2 (Zdigits2 m - 1 + e) * p2 (-53) <= x * p2 (-53))%Q
      by (apply Qmult_le_compat_r; [assumption|apply Qlt_le_weak, p2_pos]). lra.
  - intros k E HE HE' Hk. apply (X (k * 2 ^ (E - Z.max e (fexp53 (Zdigits2 m + e))))).
    rewrite fexp_eq in *. rewrite Hk, inject_Z_mult, <- p2_Z by lia. rewrite <- Qmult_assoc, <- p2_add.
    replace (E - Z.max e (Z.max (Zdigits2 m + e - 53) (-1074)) + Z.max e (Z.max (Zdigits2 m + e - 53) (-1074))) with E by lia.
    reflexivity.
Qed.

(** ** The operations *)
Definition flt (x : f64) : Prop := finite x /\ canon x.
(** [r] is [x] rounded. *)
Definition rounds (r : f64) (x : Q) : Prop :=
  flt r /\ (Qabs (fval r - x) <= Qabs x * p2 (-53) + p2 (-1075))%Q /\
  (forall k E, -1074 <= E -> (Qabs x < p2 (E + 53))%Q -> (x == inject_Z k * p2 E)%Q -> (fval r == x)%Q).

Lemma located_lower m e l x : 0 < m -> located m e l x -> (p2 (Zdigits2 m - 1 + e) <= x)%Q.
Proof.
  intros Hm (y & -> & Hy). rewrite p2_add. apply Qmult_le_compat_r; [|apply Qlt_le_weak, p2_pos].
  destruct (digits_bounds m Hm) as [L _]. pose proof (digits_pos m Hm).
  rewrite p2_Z by lia. rewrite Zle_Qle in L. destruct l as [|[]]; cbn [loc] in Hy; lra.
Qed.
Lemma p2_lt_inv a b : (p2 a < p2 b)%Q -> a < b.
Proof. intro H. apply (Qpower_lt_compat_l_inv 2); [exact H|reflexivity]. Qed.
Lemma p2_le_inv a b : (p2 a <= p2 b)%Q -> a <= b.
Proof. intro H. apply (Qpower_le_compat_l_inv 2); [exact H|reflexivity]. Qed.

Lemma sign_abs s x : (Qabs (sign s x) == Qabs x)%Q.
Proof. destruct s; cbn [sign]; [apply Qabs_opp|reflexivity]. Qed.

Lemma rounds_aux sx m e l x : 0 <= m -> located m e l (Qabs x) -> (x == sign sx (Qabs x))%Q ->
  (Qabs x <= p2 900)%Q -> e <= 900 -> e <= fexp53 (Zdigits2 m + e) ->
  rounds (binary_round_aux prec emax sx m e l) x.
Proof.
  intros Hm Hl Hs Hx He Hc.
  assert (Hd : Zdigits2 m + e <= 1000).
  { destruct (Z.eq_dec m 0) as [->|Hne]; [cbn [Zdigits2]; lia|].
    pose proof (located_lower m e l _ ltac:(lia) Hl) as L.
    assert (p2 (Zdigits2 m - 1 + e) <= p2 900)%Q by lra. apply p2_le_inv in H. lia. }
  destruct (round_aux_rel sx m e l (Qabs x) Hm Hl Hd He Hc) as (F & C & v & V & B & X).
  split; [split; assumption|]. split.
  - rewrite V. setoid_replace (sign sx v - x)%Q with (sign sx (v - Qabs x))%Q.
    + now rewrite sign_abs.
    + rewrite Hs at 1. destruct sx; cbn [sign]; ring.
  - intros k E HE HE' Hk. rewrite V.
    assert (HV : (v == Qabs x)%Q).
    { apply (X (Z.abs k) E); [|exact HE|].
      - destruct (Z.eq_dec m 0) as [->|Hne]; [cbn [Zdigits2] in *; rewrite fexp_eq in Hc; lia|].
        pose proof (located_lower m e l _ ltac:(lia) Hl) as L.
        assert (p2 (Zdigits2 m - 1 + e) < p2 (E + 53))%Q by lra. apply p2_lt_inv in H. lia.
      - rewrite Hk, Qabs_Qmult, (Qabs_pos (p2 E)) by (apply Qlt_le_weak, p2_pos). reflexivity. }
    destruct sx; cbn [sign] in *; rewrite HV; now symmetry.
Qed.

Lemma located_exact m e x : (x == inject_Z m * p2 e)%Q -> located m e loc_Exact x.
Proof. intro H. exists (inject_Z m). split; [exact H|]. cbn. reflexivity. Qed.

Lemma flt_rounds x : flt x -> rounds x (fval x).
Proof.
  intro H. split; [exact H|]. split; [|reflexivity].
  setoid_replace (fval x - fval x)%Q with 0%Q by ring. change (Qabs 0) with 0%Q.
  assert (0 <= Qabs (fval x) * p2 (-53))%Q by (apply Qmult_le_0_compat; [apply Qabs_nonneg|apply Qlt_le_weak, p2_pos]).
  pose proof (p2_pos (-1075)). lra.
Qed.
Lemma rounds_eq r x y : (x == y)%Q -> rounds r x -> rounds r y.
Proof.
  intros E (F & B & X). split; [exact F|]. rewrite <- E. split; [exact B|].
  intros k e. rewrite <- E. apply X.
Qed.

Lemma shl_align_ok m e e' : Z.pos (fst (shl_align m e e')) = Z.pos m * 2 ^ (e - snd (shl_align m e e')) /\
  snd (shl_align m e e') = Z.min e e'.
Proof.
  unfold shl_align. destruct (e' - e) as [|d|d] eqn:E; cbn [fst snd].
  - rewrite Z.sub_diag. split; lia.
  - rewrite Z.sub_diag. split; lia.
  - split; [|lia]. rewrite shift_pos_correct. rewrite Zpower_pos_nat, Zpower_nat_Z. rewrite positive_nat_Z.
    replace (e - e') with (Z.pos d) by lia. lia.
Qed.

Lemma digits_mul_pow m n : 0 < m -> 0 <= n -> Zdigits2 (m * 2 ^ n) = Zdigits2 m + n.
Proof.
  intros Hm Hn. pose proof (digits_pos m Hm). destruct (digits_bounds m Hm) as [L U]. apply digits_unique; [lia|].
  replace (Zdigits2 m + n - 1) with (Zdigits2 m - 1 + n) by lia. rewrite !Z.pow_add_r by lia.
  assert (0 < 2 ^ n) by (apply Z.pow_pos_nonneg; lia). nia.
Qed.

Lemma binary_round_ok s m e x : (x == sign s (inject_Z (Z.pos m) * p2 e))%Q -> (Qabs x <= p2 900)%Q ->
  rounds (binary_round prec emax s m e) x.
Proof.
  intros Hx Hb. unfold binary_round. fold fexp53.
  pose proof (shl_align_ok m e (fexp53 (Z.pos (digits2_pos m) + e))) as [M E].
  destruct (shl_align _ _ _) as [mz ez]. cbn [fst snd] in M, E. change (Z.pos (digits2_pos m)) with (Zdigits2 (Z.pos m)) in E.
  assert (Hez : ez <= e) by lia.
  assert (HA : (Qabs x == inject_Z (Z.pos m) * p2 e)%Q).
  { rewrite Hx, sign_abs, Qabs_pos; [reflexivity|]. apply Qmult_le_0_compat; [discriminate|apply Qlt_le_weak, p2_pos]. }
  assert (He : e <= 900).
  { apply p2_le_inv. eapply Qle_trans; [|exact Hb]. rewrite HA.
    assert (1 * p2 e <= inject_Z (Z.pos m) * p2 e)%Q; [|lra].
    apply Qmult_le_compat_r; [|apply Qlt_le_weak, p2_pos]. change 1%Q with (inject_Z 1). rewrite <- Zle_Qle. lia. }
  assert (HD : Zdigits2 (Z.pos mz) + ez = Zdigits2 (Z.pos m) + e) by (rewrite M, digits_mul_pow; lia).
  apply rounds_aux; try lia; try assumption.
  - apply located_exact. rewrite HA, M, inject_Z_mult, <- p2_Z by lia. rewrite <- Qmult_assoc, <- p2_add.
    replace (e - ez + ez) with e by lia. reflexivity.
  - destruct s; cbn [sign] in *; rewrite HA; exact Hx.
  - rewrite HD. lia.
Qed.

Lemma binary_normalize_ok m e s x : (x == inject_Z m * p2 e)%Q -> (Qabs x <= p2 900)%Q ->
  rounds (binary_normalize prec emax m e s) x.
Proof.
  intros Hx Hb. destruct m as [|m|m]; cbn [binary_normalize].
  - apply (rounds_eq _ (fval (S754_zero s))); [rewrite Hx; cbn [fval]; unfold inject_Z; ring|].
    apply flt_rounds. split; exact I.
  - apply binary_round_ok; [exact Hx|exact Hb].
  - apply binary_round_ok; [|exact Hb]. rewrite Hx. cbn [sign]. change (Z.neg m) with (- Z.pos m).
    rewrite inject_Z_opp. ring.
Qed.

Lemma zero_rounds s : rounds (S754_zero s) 0.
Proof. apply (rounds_eq _ (fval (S754_zero s))); [reflexivity|]. apply flt_rounds. split; exact I. Qed.
Definition big : Q := p2 400.
Lemma finite_exp s m e n : (Qabs (fval (S754_finite s m e)) <= p2 n)%Q -> Zdigits2 (Z.pos m) - 1 + e <= n /\ e <= n.
Proof.
  intro H. cbn [fval] in H. rewrite sign_abs, Qabs_pos in H
    by (apply Qmult_le_0_compat; [discriminate|apply Qlt_le_weak, p2_pos]).
  pose proof (located_lower (Z.pos m) e loc_Exact (inject_Z (Z.pos m) * p2 e) ltac:(lia) ltac:(now apply located_exact)) as L.
  assert (L' : (p2 (Zdigits2 (Z.pos m) - 1 + e) <= p2 n)%Q) by lra. apply p2_le_inv in L'.
  pose proof (digits_pos (Z.pos m) ltac:(lia)). lia.
Qed.

Lemma cond_Zopp_val s m : (inject_Z (cond_Zopp s m) == sign s (inject_Z m))%Q.
Proof. destruct s; cbn [cond_Zopp sign]; [rewrite inject_Z_opp|]; reflexivity. Qed.
Lemma aligned s m e ez : ez <= e ->
  (fval (S754_finite s m e) == inject_Z (cond_Zopp s (Z.pos (fst (shl_align m e ez)))) * p2 ez)%Q.
Proof.
  intro H. destruct (shl_align_ok m e ez) as [M E]. replace (snd _) with ez in M by lia.
  rewrite cond_Zopp_val, M. cbn [fval]. assert (HV : (inject_Z (Z.pos m) * p2 e == inject_Z (Z.pos m * 2 ^ (e - ez)) * p2 ez)%Q).
  { rewrite inject_Z_mult, <- p2_Z by lia. rewrite <- Qmult_assoc, <- p2_add. replace (e - ez + ez) with e by lia. reflexivity. }
  destruct s; cbn [sign]; rewrite HV; ring.
Qed.

Lemma big_double : (big + big <= p2 900)%Q.
Proof.
  unfold big. assert (E : (p2 400 + p2 400 == p2 401)%Q) by (change 401 with (400 + 1); rewrite p2_succ; ring).
  rewrite E. apply p2_le. lia.
Qed.

Lemma fadd_ok a b : flt a -> flt b -> (Qabs (fval a) <= big)%Q -> (Qabs (fval b) <= big)%Q ->
  rounds (fadd a b) (fval a + fval b).
Proof.
  intros Fa Fb Ba Bb. pose proof Fa as [Fa1 _]. pose proof Fb as [Fb1 _].
  destruct a as [sa|sa| |sa ma ea]; try contradiction; destruct b as [sb|sb| |sb mb eb]; try contradiction.
  - unfold fadd, SFadd. apply (rounds_eq _ 0); [reflexivity|]. destruct (Bool.eqb sa sb); apply zero_rounds.
  - apply (rounds_eq _ (fval (S754_finite sb mb eb))); [cbn [fval]; ring|]. now apply flt_rounds.
  - apply (rounds_eq _ (fval (S754_finite sa ma ea))); [cbn [fval]; ring|]. now apply flt_rounds.
  - unfold fadd, SFadd. apply binary_normalize_ok.
    + rewrite inject_Z_plus. rewrite (aligned sa ma ea (Z.min ea eb)), (aligned sb mb eb (Z.min ea eb)) by lia. ring.
    + eapply Qle_trans; [apply Qabs_triangle|]. pose proof big_double. lra.
Qed.
Lemma fsub_ok a b : flt a -> flt b -> (Qabs (fval a) <= big)%Q -> (Qabs (fval b) <= big)%Q ->
  rounds (fsub a b) (fval a - fval b).
Proof.
  intros Fa Fb Ba Bb. pose proof Fa as [Fa1 Ca]. pose proof Fb as [Fb1 Cb].
  destruct a as [sa|sa| |sa ma ea]; try contradiction; destruct b as [sb|sb| |sb mb eb]; try contradiction.
  - unfold fsub, SFsub. apply (rounds_eq _ 0); [reflexivity|]. destruct (Bool.eqb sa (negb sb)); apply zero_rounds.
  - apply (rounds_eq _ (fval (S754_finite (negb sb) mb eb))); [destruct sb; cbn [fval negb sign]; ring|].
    apply flt_rounds. split; [exact I|exact Cb].
  - apply (rounds_eq _ (fval (S754_finite sa ma ea))); [cbn [fval]; ring|]. now apply flt_rounds.
  - unfold fsub, SFsub. apply binary_normalize_ok.
    + unfold Z.sub. rewrite inject_Z_plus, inject_Z_opp.
      rewrite (aligned sa ma ea (Z.min ea eb)), (aligned sb mb eb (Z.min ea eb)) by lia. ring.
    + eapply Qle_trans; [apply (Qabs_triangle (fval (S754_finite sa ma ea)) (- fval (S754_finite sb mb eb)))|].
      rewrite Qabs_opp. pose proof big_double. lra.
Qed.

Lemma sign_xor sa sb x y : (sign sa x * sign sb y == sign (xorb sa sb) (x * y))%Q.
Proof. destruct sa, sb; cbn [sign xorb]; ring. Qed.
Lemma value_abs s m e : (Qabs (fval (S754_finite s m e)) == inject_Z (Z.pos m) * p2 e)%Q.
Proof.
  cbn [fval]. rewrite sign_abs, Qabs_pos; [reflexivity|].
  apply Qmult_le_0_compat; [discriminate|apply Qlt_le_weak, p2_pos].
Qed.
Lemma Qmult_le_both a b c d : (0 <= a -> 0 <= b -> a <= c -> b <= d -> a * b <= c * d)%Q.
Proof. intros. nra. Qed.

Lemma fmul_ok a b : flt a -> flt b -> (Qabs (fval a) <= big)%Q -> (Qabs (fval b) <= big)%Q ->
  rounds (fmul a b) (fval a * fval b).
Proof.
  intros Fa Fb Ba Bb. pose proof Fa as [Fa1 Ca]. pose proof Fb as [Fb1 Cb].
  destruct a as [sa|sa| |sa ma ea]; try contradiction; destruct b as [sb|sb| |sb mb eb]; try contradiction.
  - apply (rounds_eq _ 0); [reflexivity|apply zero_rounds].
  - apply (rounds_eq _ 0); [cbn [fval]; ring|apply zero_rounds].
  - apply (rounds_eq _ 0); [cbn [fval]; ring|apply zero_rounds].
  - unfold fmul, SFmul. destruct (finite_exp _ _ _ _ Ba) as [_ Ha]. destruct (finite_exp _ _ _ _ Bb) as [_ Hb].
    assert (HA : (Qabs (fval (S754_finite sa ma ea) * fval (S754_finite sb mb eb)) ==
                 inject_Z (Z.pos (ma * mb)) * p2 (ea + eb))%Q).
    { rewrite Qabs_Qmult, !value_abs, p2_add, Pos2Z.inj_mul, inject_Z_mult. ring. }
    apply rounds_aux; try lia.
    + apply located_exact. exact HA.
    + assert (HS : (fval (S754_finite sa ma ea) * fval (S754_finite sb mb eb) ==
          sign (xorb sa sb) (inject_Z (Z.pos (ma * mb)) * p2 (ea + eb)))%Q).
      { cbn [fval]. rewrite sign_xor. destruct (xorb sa sb); cbn [sign]; rewrite p2_add, Pos2Z.inj_mul, inject_Z_mult; ring. }
      destruct (xorb sa sb); cbn [sign] in *; rewrite HA; exact HS.
    + rewrite Qabs_Qmult. apply (Qle_trans _ (big * big)).
      * apply Qmult_le_both; (apply Qabs_nonneg || assumption).
      * unfold big. rewrite <- p2_add. apply p2_le. lia.
    + cbn [canon] in Ca, Cb. rewrite fexp_eq in *.
      assert (HDa : Zdigits2 (Z.pos ma) <= Zdigits2 (Z.pos (ma * mb))).
      { destruct (digits_bounds (Z.pos ma) ltac:(lia)) as [L _]. pose proof (digits_pos (Z.pos ma) ltac:(lia)).
        pose proof (digits_ge (Z.pos (ma * mb)) (Zdigits2 (Z.pos ma) - 1) ltac:(lia) ltac:(nia)). lia. }
      assert (HDb : Zdigits2 (Z.pos mb) <= Zdigits2 (Z.pos (ma * mb))).
      { destruct (digits_bounds (Z.pos mb) ltac:(lia)) as [L _]. pose proof (digits_pos (Z.pos mb) ltac:(lia)).
        pose proof (digits_ge (Z.pos (ma * mb)) (Zdigits2 (Z.pos mb) - 1) ltac:(lia) ltac:(nia)). lia. }
      lia.
Qed.

Lemma new_location_ok m2 r : 0 < m2 -> 0 <= r < m2 -> loc 0 (new_location m2 r) (inject_Z r / inject_Z m2).
Proof.
  intros Hm Hr.
  assert (P : (0 < inject_Z m2)%Q) by (change 0%Q with (inject_Z 0); rewrite <- Zlt_Qlt; lia).
  assert (Hlt : r < m2 -> (inject_Z r / inject_Z m2 < 1)%Q).
  { intro. apply Qlt_shift_div_r; [exact P|]. rewrite Qmult_1_l, <- Zlt_Qlt. lia. }
  assert (Hgt : 0 < r -> (0 < inject_Z r / inject_Z m2)%Q).
  { intro. apply Qlt_shift_div_l; [exact P|]. rewrite Qmult_0_l. change 0%Q with (inject_Z 0). rewrite <- Zlt_Qlt. lia. }
  assert (H1 : 2 * r < m2 -> (inject_Z r / inject_Z m2 < 1#2)%Q).
  { intro. apply Qlt_shift_div_r; [exact P|]. unfold Qlt. cbn -[Z.mul]. lia. }
  assert (H2 : m2 < 2 * r -> (1#2 < inject_Z r / inject_Z m2)%Q).
  { intro. apply Qlt_shift_div_l; [exact P|]. unfold Qlt. cbn -[Z.mul]. lia. }
  assert (H3 : 2 * r = m2 -> (inject_Z r / inject_Z m2 == 1#2)%Q).
  { intro. assert (E : (inject_Z r == (1#2) * inject_Z m2)%Q) by (unfold Qeq; cbn -[Z.mul]; lia). rewrite E. field. lra. }
  assert (Hev : Z.even m2 = true \/ Z.even m2 = false /\ 2 * r <> m2).
  { destruct (Z.even m2) eqn:E; [now left|right]. split; [reflexivity|]. intros <-. rewrite Z.even_mul in E. discriminate. }
  unfold new_location, new_location_even, new_location_odd.
  destruct (Z.eq_dec r 0) as [->|Hne].
  { destruct (Z.even m2); cbn; unfold Qdiv; rewrite ?Qmult_0_l; change (inject_Z 0) with 0%Q; ring. }
  assert (Hz : Zeq_bool r 0 = false) by (unfold Zeq_bool; destruct (Z.compare_spec r 0); [lia|reflexivity..]).
  destruct Hev as [E|[E Hn]]; rewrite E, Hz.
  - destruct (Z.compare_spec (2 * r) m2); cbn [loc]; change (inject_Z 0) with 0%Q.
    + rewrite H3 by assumption. reflexivity.
    + split; [apply Hgt; lia|]. rewrite Qplus_0_l. now apply H1.
    + split; [rewrite Qplus_0_l; now apply H2|]. rewrite Qplus_0_l. apply Hlt. lia.
  - destruct (Z.compare_spec (2 * r + 1) m2); cbn [loc]; change (inject_Z 0) with 0%Q.
    + split; [apply Hgt; lia|]. rewrite Qplus_0_l. apply H1. lia.
    + split; [apply Hgt; lia|]. rewrite Qplus_0_l. apply H1. lia.
    + split; [rewrite Qplus_0_l; apply H2; lia|]. rewrite Qplus_0_l. apply Hlt. lia.
Qed.

Lemma loc_shift m l y : loc 0 l y -> loc m l (inject_Z m + y).
Proof. destruct l as [|[]]; cbn [loc]; change (inject_Z 0) with 0%Q; lra. Qed.

Lemma fdiv_ok a b : flt a -> flt b -> (Qabs (fval a) <= big)%Q -> (p2 (-400) <= Qabs (fval b))%Q -> (Qabs (fval b) <= big)%Q ->
  rounds (fdiv a b) (fval a / fval b).
Proof.
  intros Fa Fb Ba Lb Bb. pose proof Fa as [Fa1 Ca]. pose proof Fb as [Fb1 Cb].
  destruct b as [sb|sb| |sb mb eb]; try contradiction.
  destruct a as [sa|sa| |sa ma ea]; try contradiction.
  { apply (rounds_eq _ 0); [cbn [fval]; unfold Qdiv; ring|apply zero_rounds]. }
  unfold fdiv, SFdiv, SFdiv_core_binary. cbv zeta. fold fexp53.
  set (e' := Z.min _ (ea - eb)). set (s := ea - eb - e').
  assert (Hs : 0 <= s) by lia.
  replace (match s with Z.pos _ => Z.shiftl (Z.pos ma) s | 0 => Z.pos ma | Z.neg _ => 0 end) with (Z.pos ma * 2 ^ s).
  2:{ destruct s; [rewrite Z.pow_0_r; lia|now rewrite Z.shiftl_mul_pow2 by lia|lia]. }
  pose proof (Z_div_mod (Z.pos ma * 2 ^ s) (Z.pos mb) ltac:(lia)) as D.
  destruct (Z.div_eucl _ _) as [q r]. destruct D as [D1 D2].
  destruct (finite_exp _ _ _ _ Ba) as [_ Ha].
  assert (Hb : -453 <= eb).
  { rewrite value_abs in Lb. cbn [canon] in Cb. rewrite fexp_eq in Cb.
    destruct (digits_bounds (Z.pos mb) ltac:(lia)) as [_ U].
    assert (H53 : Zdigits2 (Z.pos mb) <= 53) by lia.
    assert (Hm : (inject_Z (Z.pos mb) <= p2 53)%Q).
    { rewrite p2_Z by lia. rewrite <- Zle_Qle. pose proof (Z.pow_le_mono_r 2 (Zdigits2 (Z.pos mb)) 53 ltac:(lia) H53). lia. }
    assert (Hle : (p2 (-400) <= p2 53 * p2 eb)%Q).
    { eapply Qle_trans; [exact Lb|]. apply Qmult_le_compat_r; [exact Hm|apply Qlt_le_weak, p2_pos]. }
    rewrite <- p2_add in Hle. apply p2_le_inv in Hle. lia. }
  assert (P2 : (0 < inject_Z (Z.pos mb))%Q) by reflexivity.
  assert (NZ : (~ p2 eb == 0)%Q) by (pose proof (p2_pos eb); lra).
  assert (HA : (Qabs (fval (S754_finite sa ma ea) / fval (S754_finite sb mb eb)) ==
                (inject_Z q + inject_Z r / inject_Z (Z.pos mb)) * p2 e')%Q).
  { unfold Qdiv. rewrite Qabs_Qmult, Qabs_Qinv, !value_abs.
    assert (E1 : (inject_Z q + inject_Z r * / inject_Z (Z.pos mb) == inject_Z (Z.pos ma) * p2 s / inject_Z (Z.pos mb))%Q).
    { rewrite p2_Z by lia. rewrite <- inject_Z_mult, D1, inject_Z_plus, inject_Z_mult. field. lra. }
    rewrite E1. assert (E2 : (p2 ea == p2 s * p2 e' * p2 eb)%Q).
    { rewrite <- !p2_add. replace (s + e' + eb) with ea by lia. reflexivity. }
    rewrite E2. field. split; [lra|exact NZ]. }
  assert (HL : located q e' (new_location (Z.pos mb) r) (Qabs (fval (S754_finite sa ma ea) / fval (S754_finite sb mb eb)))).
  { exists (inject_Z q + inject_Z r / inject_Z (Z.pos mb))%Q. split; [exact HA|].
    apply loc_shift, new_location_ok; lia. }
  assert (Hq : 0 <= q) by nia.
  apply rounds_aux; try assumption.
  - assert (HS : (fval (S754_finite sa ma ea) / fval (S754_finite sb mb eb) ==
        sign (xorb sa sb) (Qabs (fval (S754_finite sa ma ea)) / Qabs (fval (S754_finite sb mb eb))))%Q).
    { assert (NM : (~ inject_Z (Z.pos mb) == 0)%Q) by lra.
      destruct sa, sb; cbn [sign xorb]; rewrite !value_abs; cbn [fval sign]; field; auto. }
    assert (HAb : (Qabs (fval (S754_finite sa ma ea) / fval (S754_finite sb mb eb)) ==
       Qabs (fval (S754_finite sa ma ea)) / Qabs (fval (S754_finite sb mb eb)))%Q).
    { unfold Qdiv. now rewrite Qabs_Qmult, Qabs_Qinv. }
    destruct (xorb sa sb); cbn [sign] in *; rewrite HAb; exact HS.
  - unfold Qdiv. rewrite Qabs_Qmult, Qabs_Qinv. change (Qabs (fval (S754_finite sa ma ea)) / Qabs (fval (S754_finite sb mb eb)) <= p2 900)%Q.
    pose proof (p2_pos (-400)). apply Qle_shift_div_r; [lra|]. eapply Qle_trans; [exact Ba|].
    apply (Qle_trans _ (p2 900 * p2 (-400))).
    + rewrite <- p2_add. apply p2_le. lia.
    + pose proof (p2_pos 900). nra.
  - lia.
  - pose proof (digits_nonneg q).
    assert (HD : Zdigits2 (Z.pos ma) + s - Zdigits2 (Z.pos mb) <= Zdigits2 q).
    { destruct (Z.le_gt_cases (Zdigits2 (Z.pos ma) + s - Zdigits2 (Z.pos mb)) 0); [lia|].
      destruct (digits_bounds (Z.pos ma) ltac:(lia)) as [L _]. destruct (digits_bounds (Z.pos mb) ltac:(lia)) as [_ U].
      pose proof (digits_pos (Z.pos ma) ltac:(lia)). pose proof (digits_pos (Z.pos mb) ltac:(lia)).
      set (da := Zdigits2 (Z.pos ma)) in *. set (db := Zdigits2 (Z.pos mb)) in *.
      assert (2 ^ (da + s - db - 1) <= q); [|pose proof (digits_ge q (da + s - db - 1) ltac:(lia) ltac:(assumption)); lia].
      assert (E : 2 ^ (da + s - db - 1) * 2 ^ db = 2 ^ (da - 1) * 2 ^ s) by (rewrite <- !Z.pow_add_r by lia; f_equal; lia).
      assert (0 < 2 ^ (da + s - db - 1)) by (apply Z.pow_pos_nonneg; lia). assert (0 < 2 ^ s) by (apply Z.pow_pos_nonneg; lia).
      nia. }
    subst s e'. rewrite !fexp_eq in *. lia.
Qed.
