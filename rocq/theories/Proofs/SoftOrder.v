(** The soft light formula is increasing in both arguments (C129). *)
From Verif.Model Require Import Blend.
From Verif.Spec Require Import Bytes BlendSpec.
From Verif.Proofs Require Import SoftLight.
From Coq Require Import ZifyBool.

Lemma cubic_up b b' : 0 <= b <= b' -> ((16 * b - 12 * 255) * b + 4 * 255 * 255) * b <= ((16 * b' - 12 * 255) * b' + 4 * 255 * 255) * b'.
Proof.
  intros [H0 H]. remember (b' - b) as u. assert (b' = b + u) as -> by lia.
  assert (0 <= u) by lia.
  assert (0 <= u * (16 * (3 * b * b + 3 * b * u + u * u) - 3060 * (2 * b + u) + 260100)); [|nia].
  apply Z.mul_nonneg_nonneg; [lia|].
  pose proof (Z.square_nonneg (2 * (2 * b + u) - 255)). pose proof (Z.square_nonneg u). nia.
Qed.
Lemma soft_back_up b b' s q q' : is_byte b -> is_byte b' -> is_byte s -> b <= b' ->
  soft_light_value b s q -> soft_light_value b' s q' -> q <= q'.
Proof.
  unfold is_byte, soft_light_value. intros Hb Hb' Hs Hle. destruct (Z.leb_spec (2 * s) 255) as [Hs'|Hs'].
  - unfold rounded. intros H H'.
    assert (255 * 255 * b - (255 - 2 * s) * b * (255 - b) <= 255 * 255 * b' - (255 - 2 * s) * b' * (255 - b')).
    { remember (b' - b) as u. assert (b' = b + u) as -> by lia.
      assert (0 <= u * (255 * 255 - (255 - 2 * s) * (255 - 2 * b - u))); [|nia]. apply Z.mul_nonneg_nonneg; nia. }
    lia.
  - remember (2 * s - 255) as t. assert (0 < t <= 255) by lia.
    destruct (Z.leb_spec (4 * b) 255) as [B|B], (Z.leb_spec (4 * b') 255) as [B'|B']; try lia.
    + unfold rounded. pose proof (cubic_up b b' ltac:(lia)) as G.
      remember (((16 * b - 12 * 255) * b + 4 * 255 * 255) * b) as g. remember (((16 * b' - 12 * 255) * b' + 4 * 255 * 255) * b') as g'.
      intros H1 H1'. nia.
    + unfold rounded, le_sqrt. intros [H1 _] [_ H2].
      assert (G : 2 * (((16 * b - 12 * 255) * b + 4 * 255 * 255) * b) <= 255 * 255 * 255).
      { clear - Hb B. nia. }
      remember (((16 * b - 12 * 255) * b + 4 * 255 * 255) * b) as g. clear Heqg.
      assert (K1 : 255 * (2 * q - 1) <= 2 * (255 - t) * b + 255 * t) by nia.
      destruct (Z.le_gt_cases q q') as [|Hlt]; [assumption|exfalso]. apply H2.
      assert (K2 : 255 * (2 * q' + 1 - 2 * b') + 2 * t * b' <= 255 * t) by nia.
      remember (255 * (2 * q' + 1 - 2 * b') + 2 * t * b') as X. clear HeqX.
      destruct (Z.le_gt_cases X 0); [now left|right]. 
      assert (X * X <= (255 * t) * (255 * t)) by nia. nia.
    + unfold le_sqrt. intros [H1 _] [_ H2]. destruct (Z.le_gt_cases q q') as [|Hlt]; [assumption|exfalso]. apply H2.
      assert (K : 255 * (2 * q' + 1 - 2 * b') + 2 * t * b' <= 255 * (2 * q - 1 - 2 * b) + 2 * t * b) by nia.
      remember (255 * (2 * q' + 1 - 2 * b') + 2 * t * b') as X'. remember (255 * (2 * q - 1 - 2 * b) + 2 * t * b) as X.
      clear HeqX HeqX'. destruct (Z.le_gt_cases X' 0); [now left|right]. destruct H1 as [H1|H1]; [lia|].
      assert (X' * X' <= X * X) by nia. assert (2 * t * (2 * t) * (255 * b) <= 2 * t * (2 * t) * (255 * b')) by nia. lia.
Qed.
Lemma soft_front_up b s s' q q' : is_byte b -> is_byte s -> is_byte s' -> s <= s' ->
  soft_light_value b s q -> soft_light_value b s' q' -> q <= q'.
Proof.
  unfold is_byte, soft_light_value. intros Hb Hs Hs' Hle.
  assert (G : 4 * b <= 255 -> 0 <= ((16 * b - 12 * 255) * b + 4 * 255 * 255) * b - 255 * 255 * b).
  { intro B. replace (_ - _) with (b * ((16 * b - 3060) * b + 3 * 255 * 255)) by ring. apply Z.mul_nonneg_nonneg; nia. }
  destruct (Z.leb_spec (2 * s) 255) as [L|L], (Z.leb_spec (2 * s') 255) as [L'|L']; try lia.
  - unfold rounded. intros H H'. rewrite <- !Z.mul_assoc in H, H'. assert (0 <= b * (255 - b)) by (apply Z.mul_nonneg_nonneg; lia). remember (b * (255 - b)) as v.
    assert ((255 - 2 * s') * v <= (255 - 2 * s) * v) by (apply Z.mul_le_mono_nonneg_r; lia). lia.
  - intro H. assert (Hq : q <= b).
    { unfold rounded in H. assert (0 <= (255 - 2 * s) * b * (255 - b)) by (apply Z.mul_nonneg_nonneg; nia). lia. }
    destruct (Z.leb_spec (4 * b) 255) as [B|B].
    + unfold rounded. specialize (G B). remember (_ * b - 255 * 255 * b) as g. intro H'. nia.
    + intros [_ H']. destruct (Z.le_gt_cases b q') as [|Hlt]; [lia|exfalso]. apply H'. unfold le_sqrt.
      remember (2 * s' - 255) as t. assert (K : 255 * (2 * q' + 1 - 2 * b) + 2 * t * b <= 2 * t * b) by nia.
      remember (255 * (2 * q' + 1 - 2 * b) + 2 * t * b) as X. clear HeqX.
      destruct (Z.le_gt_cases X 0); [now left|right]. assert (X * X <= (2 * t * b) * (2 * t * b)) by nia.
      assert (b * b <= 255 * b) by nia. nia.
  - destruct (Z.leb_spec (4 * b) 255) as [B|B].
    + unfold rounded. specialize (G B). remember (_ * b - 255 * 255 * b) as g. intros H H'. nia.
    + unfold le_sqrt. intros [H1 _] [_ H2]. destruct (Z.le_gt_cases q q') as [|Hlt]; [assumption|exfalso]. apply H2.
      remember (2 * s - 255) as t. remember (2 * s' - 255) as t'.
      assert (HA : 255 * (2 * q' + 1 - 2 * b) <= 255 * (2 * q - 1 - 2 * b)) by lia.
      remember (255 * (2 * q - 1 - 2 * b)) as A. remember (255 * (2 * q' + 1 - 2 * b)) as A'. clear HeqA HeqA' Hlt.
      assert (0 < t <= t') by lia. clear Heqt Heqt'.
      destruct (Z.le_gt_cases (A' + 2 * t' * b) 0) as [|P]; [now left|right].
      destruct (Z.le_gt_cases A 0) as [Q|Q].
      * assert ((A' + 2 * t' * b) * (A' + 2 * t' * b) <= (2 * t' * b) * (2 * t' * b)) by nia.
        assert (b * b <= 255 * b) by nia. nia.
      * destruct H1 as [H1|H1]; [nia|].
        assert (K : t * (A' + 2 * t' * b) <= t' * (A + 2 * t * b)) by nia.
        assert (K2 : (t * (A' + 2 * t' * b)) * (t * (A' + 2 * t' * b)) <= (t' * (A + 2 * t * b)) * (t' * (A + 2 * t * b))).
        { apply Z.mul_le_mono_nonneg; nia. }
        remember (A' + 2 * t' * b) as X'. remember (A + 2 * t * b) as X. clear HeqX HeqX' K.
        assert (K3 : (t * t) * (X' * X') <= (t * t) * (2 * t' * (2 * t') * (255 * b))).
        { assert ((t' * t') * (X * X) <= (t' * t') * (2 * t * (2 * t) * (255 * b))) by nia. nia. }
        nia.
Qed.
Lemma soft_up b b' s s' q q' : is_byte b -> is_byte b' -> is_byte s -> is_byte s' -> b <= b' -> s <= s' ->
  soft_light_value b s q -> soft_light_value b' s' q' -> q <= q'.
Proof.
  intros Hb Hb' Hs Hs' H1 H2 V V'. destruct (soft_light_ok b' s Hb' Hs) as [_ W].
  pose proof (soft_back_up b b' s q _ Hb Hb' Hs H1 V W). pose proof (soft_front_up b' s s' _ q' Hb' Hs Hs' H2 W V'). lia.
Qed.
