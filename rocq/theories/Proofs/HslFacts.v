(** The HSL blend modes in floating point against the same formulas over the
    rationals. *)
From Coq Require Import QArith Qpower Qabs Qround Qminmax Lqa.
From Verif.Model Require Import Blend.
From Verif.Spec Require Import Bytes BlendSpec HslSpec.
From Verif.Proofs Require Import FloatFacts FloatNear.
From Coq Require Import Floats.SpecFloat.
Local Open Scope Q_scope.

(** An error of [k] roundings of numbers up to 256 *)
Definition u0 : Q := 1 # 17592186044416.
Lemma u0_ulp : u0 == 256 * ulp. Proof. reflexivity. Qed.

Lemma Qltb_spec x y : if Qltb x y then x < y else y <= x.
Proof.
  unfold Qltb. destruct (Qle_bool y x) eqn:E; cbn [negb].
  - now apply Qle_bool_iff.
  - apply Qnot_le_lt. intro H. apply Qle_bool_iff in H. congruence.
Qed.
Lemma div_bound x m D : 0 < m -> - (D * m) <= x <= D * m -> - D <= x / m <= D.
Proof.
  intros Hm Hx. split; [apply Qle_shift_div_l|apply Qle_shift_div_r]; lra.
Qed.
Lemma div_between x m lo hi : 0 < m -> lo * m <= x <= hi * m -> lo <= x / m <= hi.
Proof.
  intros Hm Hx. split; [apply Qle_shift_div_l|apply Qle_shift_div_r]; lra.
Qed.

(** The closed form of SetLum for one channel: [u] is its distance from the
    luminosity of the old colour, [a] and [b] those of the extreme channels. *)
Definition lowered (u l a : Q) : Q := if Qltb (l - a) 0 then u * l / a else u.
Definition raised (k l b : Q) : Q := if Qltb 1 (l + b) then k * (1 - l) / b else k.

Lemma lowered_range u l a b : 0 <= l -> (11#100) <= a -> 0 <= b -> - a <= u <= b -> - a <= lowered u l a <= b.
Proof.
  intros Hl Ha Hb Hu. unfold lowered. pose proof (Qltb_spec (l - a) 0) as S. destruct (Qltb (l - a) 0); [|exact Hu].
  apply div_between; [lra|]. split; nra.
Qed.

Lemma near_mul_le x y v w e f V W B E : near x v e -> near y w f -> (- V <= v <= V)%Q -> (- W <= w <= W)%Q ->
  (V <= 500000000)%Q -> (W <= 500000000)%Q -> (e <= 1)%Q -> (f <= 1)%Q -> (1 <= B)%Q -> ((V + e) * (W + f) <= B)%Q ->
  e * (W + f) + V * f + B * ulp <= E -> near (fmul x y) (v * w) E.
Proof. intros. eapply near_weaken; [eapply near_mul; eassumption|assumption]. Qed.
Lemma near_div_le x y v w e f V W m D B E : near x v e -> near y w f -> (- V <= v <= V)%Q -> (- W <= w <= W)%Q ->
  (V <= 500000000)%Q -> (W <= 500000000)%Q -> (e <= 1)%Q -> (f <= 1)%Q -> (1 <= B)%Q ->
  (1#1000 <= m)%Q -> (f <= (1#2) * m)%Q -> (m <= w \/ w <= - m)%Q -> (- D <= v / w <= D)%Q ->
  (D + E <= B)%Q -> 2 * (e + D * f) <= E * m ->
  near (fdiv x y) (v / w) (E + B * ulp).
Proof.
  intros Hx Hy Hv Hw LV LW He Hf HB Hm Hfm Lw HD HR HE.
  assert (2 * (e + D * f) / m <= E) by (apply Qle_shift_div_r; lra).
  eapply near_weaken; [eapply (near_div x y v w e f V W m D B); try eassumption; lra|lra].
Qed.
Lemma near_add_le x y v w e f B E : near x v e -> near y w f -> (-500000000 <= v <= 500000000)%Q -> (-500000000 <= w <= 500000000)%Q ->
  (e <= 1)%Q -> (f <= 1)%Q -> (1 <= B)%Q -> (- B + e + f <= v + w <= B - e - f)%Q -> e + f + B * ulp <= E -> near (fadd x y) (v + w) E.
Proof. intros. eapply near_weaken; [eapply near_add; eassumption|assumption]. Qed.
Lemma near_sub_le x y v w e f B E : near x v e -> near y w f -> (-500000000 <= v <= 500000000)%Q -> (-500000000 <= w <= 500000000)%Q ->
  (e <= 1)%Q -> (f <= 1)%Q -> (1 <= B)%Q -> (- B + e + f <= v - w <= B - e - f)%Q -> e + f + B * ulp <= E -> near (fsub x y) (v - w) E.
Proof. intros. eapply near_weaken; [eapply near_sub; eassumption|assumption]. Qed.

Lemma zero_near : near (f_of_Z 0) 0 0.
Proof. apply (f_of_Z_near 0). reflexivity. Qed.
Lemma one_near : near (f_of_Z 1) 1 0.
Proof. apply (f_of_Z_near 1). reflexivity. Qed.

Ltac q := unfold u0, ulp in *; lra.
Lemma raise_channel v lm mx k l b W E KK :
  near v (l + k) E -> near lm l (38 * u0) -> near mx (l + b) (22 * u0) ->
  0 <= l <= 255 -> (11#100) <= b <= 255 -> 11 * k <= 89 * b -> - (89 * b) <= 11 * k -> -255 <= k <= 255 ->
  - W <= 1 - l <= W -> W <= 255 -> 0 <= E -> E <= 1000000 * u0 -> (E + 39 * u0) * (W + 39 * u0) <= KK * b ->
  0 <= KK <= 10000000 * u0 ->
  near (if fltb (f_of_Z 1) mx then fadd lm (fdiv (fmul (fsub v lm) (fsub (f_of_Z 1) lm)) (fsub mx lm)) else v)
    (l + raised k l b) (2 * KK + 3000000 * u0).
Proof.
  intros Hv Hlm Hmx Hl Hb Hk1 Hk2 Hk HW HW2 HE0 HE HKK HKK0.
  pose proof (fltb_ok (f_of_Z 1) mx (proj1 one_near) (proj1 Hmx)) as C.
  pose proof (proj2 one_near) as O. pose proof (proj2 Hmx) as M.
  unfold raised. pose proof (Qltb_spec 1 (l + b)) as S.
  assert (NB : ~ b == 0) by lra.
  destruct (fltb (f_of_Z 1) mx).
  - assert (N1 : near (fsub v lm) ((l + k) - l) (E + 39 * u0)) by (eapply (near_sub_le v lm _ _ _ _ 256); [exact Hv|exact Hlm|q..]).
    apply (near_eq _ _ k) in N1; [|ring].
    assert (N2 : near (fsub (f_of_Z 1) lm) (1 - l) (39 * u0)) by (eapply (near_sub_le _ lm _ _ _ _ 256); [exact one_near|exact Hlm|q..]).
    assert (N3 : near (fmul (fsub v lm) (fsub (f_of_Z 1) lm)) (k * (1 - l)) ((E + 39 * u0) * (W + 39 * u0) + 10300 * u0)).
    { eapply (near_mul_le _ _ _ _ _ _ 255 W 65536); [exact N1|exact N2|lra|exact HW|q..| |q].
      assert (A1 : 255 + (E + 39 * u0) <= 256) by q. assert (A2 : W + 39 * u0 <= 256) by q.
      assert (A3 : 0 <= 255 + (E + 39 * u0)) by q. assert (A4 : 0 <= W + 39 * u0) by q. nra. }
    assert (N4 : near (fsub mx lm) ((l + b) - l) (61 * u0)) by (eapply (near_sub_le mx lm _ _ _ _ 256); [exact Hmx|exact Hlm|q..]).
    apply (near_eq _ _ b) in N4; [|ring].
    assert (D : - 2066 <= k * (1 - l) / b <= 2066).
    { apply (div_bound _ _ 2066); [lra|]. split; nra. }
    assert (LB : KK * b <= 255 * KK) by nra.
    assert (N5 : near (fdiv (fmul (fsub v lm) (fsub (f_of_Z 1) lm)) (fsub mx lm)) (k * (1 - l) / b)
      (2 * KK + 2800000 * u0 + 4096 * ulp)).
    { eapply (near_div_le _ _ _ _ _ _ 65025 255 b 2066 4096); [exact N3|exact N4| |q..|lra|q|left; lra|exact D|q|q].
      pose proof (prod_bound k (1 - l) 255 255 ltac:(lra) ltac:(lra)). lra. }
    assert (N6 : near (fadd lm (fdiv (fmul (fsub v lm) (fsub (f_of_Z 1) lm)) (fsub mx lm))) (l + k * (1 - l) / b)
      (2 * KK + 2900000 * u0)).
    { eapply (near_add_le lm _ _ _ _ _ 4096); [exact Hlm|exact N5|q..]. }
    destruct (Qltb 1 (l + b)).
    + eapply near_weaken; [exact N6|q].
    + assert (R : - (200 * u0) <= k * (1 - l) / b - k <= 200 * u0).
      { assert (E1 : k * (1 - l) / b - k == k * (1 - l - b) / b) by (field; exact NB). rewrite E1.
        apply div_bound; [lra|]. assert (0 <= 1 - l - b <= 22 * u0) by q. unfold u0 in *. split; nra. }
      destruct N6 as [F N6]. split; [exact F|]. q.
  - destruct (Qltb 1 (l + b)).
    + assert (R : - (200 * u0) <= k * (1 - l) / b - k <= 200 * u0).
      { assert (E1 : k * (1 - l) / b - k == k * (1 - l - b) / b) by (field; exact NB). rewrite E1.
        apply div_bound; [lra|]. assert (- (22 * u0) <= 1 - l - b <= 0) by q. unfold u0 in *. split; nra. }
      destruct Hv as [F Hv]. split; [exact F|]. q.
    + eapply near_weaken; [exact Hv|q].
Qed.
Lemma lower_channel v lm mn u l a :
  near v (l + u) (22 * u0) -> near lm l (38 * u0) -> near mn (l - a) (22 * u0) ->
  0 <= l <= 255 -> (11#100) <= a <= 255 -> 11 * u <= 89 * a -> - (89 * a) <= 11 * u -> -255 <= u <= 255 ->
  exists E, near (if fltb mn (f_of_Z 0) then fadd lm (fdiv (fmul (fsub v lm) lm) (fsub lm mn)) else v) (l + lowered u l a) E /\
    0 <= E /\ (E <= 201 * u0 \/ (E <= 900000 * u0 /\ l <= a + 22 * u0)).
Proof.
  intros Hv Hlm Hmn Hl Ha Hu1 Hu2 Hu.
  pose proof (fltb_ok mn (f_of_Z 0) (proj1 Hmn) (proj1 zero_near)) as C.
  pose proof (proj2 zero_near) as O. pose proof (proj2 Hmn) as M.
  unfold lowered. pose proof (Qltb_spec (l - a) 0) as S.
  assert (NA : ~ a == 0) by lra.
  assert (E1 : u * l / a - u == u * (l - a) / a) by (field; exact NA).
  destruct (fltb mn (f_of_Z 0)).
  - assert (LA : l <= a + 22 * u0) by q.
    assert (N1 : near (fsub v lm) ((l + u) - l) (61 * u0)) by (eapply (near_sub_le v lm _ _ _ _ 256); [exact Hv|exact Hlm|q..]).
    apply (near_eq _ _ u) in N1; [|ring].
    assert (N3 : near (fmul (fsub v lm) lm) (u * l) (26000 * u0)).
    { eapply (near_mul_le _ _ _ _ _ _ 255 255 65536); [exact N1|exact Hlm|q..]. }
    assert (N4 : near (fsub lm mn) (l - (l - a)) (61 * u0)) by (eapply (near_sub_le lm mn _ _ _ _ 256); [exact Hlm|exact Hmn|q..]).
    apply (near_eq _ _ a) in N4; [|ring].
    assert (D : - (256) <= u * l / a <= 256).
    { apply (div_bound _ _ 256); [lra|]. unfold u0 in *. split; nra. }
    assert (N5 : near (fdiv (fmul (fsub v lm) lm) (fsub lm mn)) (u * l / a) (800000 * u0 + 512 * ulp)).
    { eapply (near_div_le _ _ _ _ _ _ 65025 255 a 256 512); [exact N3|exact N4| |q..|lra|q|left; lra|exact D|q|q].
      pose proof (prod_bound u l 255 255 ltac:(lra) ltac:(lra)). lra. }
    assert (N6 : near (fadd lm (fdiv (fmul (fsub v lm) lm) (fsub lm mn))) (l + u * l / a) (800100 * u0)).
    { eapply (near_add_le lm _ _ _ _ _ 512); [exact Hlm|exact N5|q..]. }
    exists (900000 * u0). split; [|split; [discriminate|right; split; [lra|exact LA]]].
    destruct (Qltb (l - a) 0).
    + eapply near_weaken; [exact N6|q].
    + assert (R : - (200 * u0) <= u * l / a - u <= 200 * u0).
      { rewrite E1. apply div_bound; [lra|]. assert (0 <= l - a <= 22 * u0) by q. unfold u0 in *. split; nra. }
      destruct N6 as [F N6]. split; [exact F|]. q.
  - exists (201 * u0). split; [|split; [discriminate|left; lra]].
    destruct (Qltb (l - a) 0).
    + assert (R : - (179 * u0) <= u * l / a - u <= 179 * u0).
      { rewrite E1. apply div_bound; [lra|]. assert (- (22 * u0) <= l - a <= 0) by q. unfold u0 in *. split; nra. }
      destruct Hv as [F Hv]. split; [exact F|]. q.
    + eapply near_weaken; [exact Hv|q].
Qed.

Definition clip_channel (lm mn mx v : f64) : f64 :=
  let v := if fltb mn (f_of_Z 0) then fadd lm (fdiv (fmul (fsub v lm) lm) (fsub lm mn)) else v in
  if fltb (f_of_Z 1) mx then fadd lm (fdiv (fmul (fsub v lm) (fsub (f_of_Z 1) lm)) (fsub mx lm)) else v.
Lemma clip_color_channels x y z :
  clip_color x y z = (let f := clip_channel (luminosity x y z) (fmin x (fmin y z)) (fmax x (fmax y z)) in (f x, f y, f z)).
Proof. unfold clip_color, clip_channel. cbv zeta. destruct (fltb _ (f_of_Z 0)), (fltb (f_of_Z 1) _); reflexivity. Qed.

Lemma clip_channel_ok v lm mn mx u l a b :
  near v (l + u) (22 * u0) -> near lm l (38 * u0) -> near mn (l - a) (22 * u0) -> near mx (l + b) (22 * u0) ->
  0 <= l <= 255 -> 1 <= a + b <= 255 -> (11#100) * (a + b) <= a -> (11#100) * (a + b) <= b -> - a <= u <= b ->
  near (clip_channel lm mn mx v) (l + raised (lowered u l a) l b) (21000000 * u0).
Proof.
  intros Hv Hlm Hmn Hmx Hl Hs Ha Hb Hu. unfold clip_channel.
  destruct (lower_channel v lm mn u l a Hv Hlm Hmn Hl ltac:(lra) ltac:(lra) ltac:(lra) ltac:(lra)) as (E & N & E0 & HE).
  pose proof (lowered_range u l a b ltac:(lra) ltac:(lra) ltac:(lra) Hu) as R.
  set (k := lowered u l a) in *. cbv zeta.
  destruct HE as [HE|[HE HL]].
  - eapply near_weaken; [eapply (raise_channel _ lm mx k l b 255 E (600000 * u0)); try eassumption; q|q].
  - eapply near_weaken; [eapply (raise_channel _ lm mx k l b (a + b) E (9000000 * u0)); try eassumption; try q|q].
    unfold u0 in *. nra.
Qed.

(** ** Luminosity *)
Lemma lit_3_10 : near (f_lit 3 10) (3#10) ((1#8) * ulp).
Proof. split; [split; [exact I|vm_compute; reflexivity]|]. split; vm_compute; discriminate. Qed.
Lemma lit_59_100 : near (f_lit 59 100) (59#100) ((1#4) * ulp).
Proof. split; [split; [exact I|vm_compute; reflexivity]|]. split; vm_compute; discriminate. Qed.
Lemma lit_11_100 : near (f_lit 11 100) (11#100) ((1#8) * ulp).
Proof. split; [split; [exact I|vm_compute; reflexivity]|]. split; vm_compute; discriminate. Qed.

Lemma luminosity_near x y z r g b e B : near x r e -> near y g e -> near z b e ->
  2 <= B <= 1000 -> 0 <= e <= 1#1000 ->
  - (B - 1) <= r <= B - 1 -> - (B - 1) <= g <= B - 1 -> - (B - 1) <= b <= B - 1 ->
  near (luminosity x y z) (w3c_lum (r, g, b)) (e + 8 * B * ulp).
Proof.
  intros Hx Hy Hz HB He Hr Hg Hb. unfold luminosity, w3c_lum.
  assert (N1 : near (fmul (f_lit 3 10) x) ((3#10) * r) ((3#10) * e + (13#10) * B * ulp)).
  { eapply (near_mul_le _ _ _ _ _ _ (3#10) (B - 1) B); [exact lit_3_10|exact Hx|lra|exact Hr|q..]. }
  assert (N2 : near (fmul (f_lit 59 100) y) ((59#100) * g) ((59#100) * e + (13#10) * B * ulp)).
  { eapply (near_mul_le _ _ _ _ _ _ (59#100) (B - 1) B); [exact lit_59_100|exact Hy|lra|exact Hg|q..]. }
  assert (N3 : near (fmul (f_lit 11 100) z) ((11#100) * b) ((11#100) * e + (13#10) * B * ulp)).
  { eapply (near_mul_le _ _ _ _ _ _ (11#100) (B - 1) B); [exact lit_11_100|exact Hz|lra|exact Hb|q..]. }
  assert (N4 : near (fadd (fmul (f_lit 3 10) x) (fmul (f_lit 59 100) y)) ((3#10) * r + (59#100) * g) ((89#100) * e + 4 * B * ulp)).
  { eapply (near_add_le _ _ _ _ _ _ B); [exact N1|exact N2|q..]. }
  eapply (near_add_le _ _ _ _ _ _ B); [exact N4|exact N3|q..].
Qed.

(** ** Extreme channels *)
Lemma near_min x y v w e : near x v e -> near y w e -> near (fmin x y) (Qmin v w) e.
Proof.
  intros [Fx Hx] [Fy Hy]. destruct (fmin_ok x y Fx Fy) as [F H]. split; [exact F|]. rewrite H.
  destruct (Q.min_spec (fval x) (fval y)) as [[A ->]|[A ->]], (Q.min_spec v w) as [[B ->]|[B ->]]; lra.
Qed.
Lemma near_max x y v w e : near x v e -> near y w e -> near (fmax x y) (Qmax v w) e.
Proof.
  intros [Fx Hx] [Fy Hy]. destruct (fmax_ok x y Fx Fy) as [F H]. split; [exact F|]. rewrite H.
  destruct (Q.max_spec (fval x) (fval y)) as [[A ->]|[A ->]], (Q.max_spec v w) as [[B ->]|[B ->]]; lra.
Qed.
Lemma min3_spec r g b : let n := min3 (r, g, b) in n <= r /\ n <= g /\ n <= b /\ (n == r \/ n == g \/ n == b).
Proof.
  cbn [min3]. destruct (Q.min_spec g b) as [[A E]|[A E]]; rewrite E.
  - destruct (Q.min_spec r g) as [[B F]|[B F]]; rewrite F; repeat split; try lra; auto using Qeq_refl.
  - destruct (Q.min_spec r b) as [[B F]|[B F]]; rewrite F; repeat split; try lra; auto using Qeq_refl.
Qed.
Lemma max3_spec r g b : let n := max3 (r, g, b) in r <= n /\ g <= n /\ b <= n /\ (n == r \/ n == g \/ n == b).
Proof.
  cbn [max3]. destruct (Q.max_spec g b) as [[A E]|[A E]]; rewrite E.
  - destruct (Q.max_spec r b) as [[B F]|[B F]]; rewrite F; repeat split; try lra; auto using Qeq_refl.
  - destruct (Q.max_spec r g) as [[B F]|[B F]]; rewrite F; repeat split; try lra; auto using Qeq_refl.
Qed.
Lemma min3_shift r g b d : min3 (r + d, g + d, b + d) == min3 (r, g, b) + d.
Proof.
  pose proof (min3_spec r g b) as (A1 & A2 & A3 & A4). pose proof (min3_spec (r + d) (g + d) (b + d)) as (B1 & B2 & B3 & B4).
  destruct A4 as [A4|[A4|A4]], B4 as [B4|[B4|B4]]; lra.
Qed.
Lemma max3_shift r g b d : max3 (r + d, g + d, b + d) == max3 (r, g, b) + d.
Proof.
  pose proof (max3_spec r g b) as (A1 & A2 & A3 & A4). pose proof (max3_spec (r + d) (g + d) (b + d)) as (B1 & B2 & B3 & B4).
  destruct A4 as [A4|[A4|A4]], B4 as [B4|[B4|B4]]; lra.
Qed.
Lemma extremes r g b : let n := min3 (r, g, b) in let x := max3 (r, g, b) in let l := w3c_lum (r, g, b) in
  (11#100) * (x - n) <= l - n /\ (11#100) * (x - n) <= x - l.
Proof.
  cbv zeta. pose proof (min3_spec r g b) as (A1 & A2 & A3 & A4). pose proof (max3_spec r g b) as (B1 & B2 & B3 & B4).
  unfold w3c_lum. destruct A4 as [A4|[A4|A4]], B4 as [B4|[B4|B4]]; lra.
Qed.

(** ** SetLum *)
Definition in_range (c : rgb) : Prop := let '(r, g, b) := c in 0 <= r <= 255 /\ 0 <= g <= 255 /\ 0 <= b <= 255.
Definition near3 (f : f64 * f64 * f64) (c : rgb) (e : Q) : Prop :=
  let '(x, y, z) := f in let '(r, g, b) := c in near x r e /\ near y g e /\ near z b e.

(** The specification in its closed form *)
Lemma Qltb_comp a b c d : a == c -> b == d -> Qltb a b = Qltb c d.
Proof. intros H K. unfold Qltb. now rewrite H, K. Qed.
Lemma set_lum_closed r g b l : 
  let L := w3c_lum (r, g, b) in let p := L - min3 (r, g, b) in let q := max3 (r, g, b) - L in
  let f v := l + raised (lowered (v - L) l p) l q in
  let '(x, y, z) := w3c_set_lum 1 (r, g, b) l in x == f r /\ y == f g /\ z == f b.
Proof.
  cbv zeta. unfold w3c_set_lum. cbn [map3]. set (L := w3c_lum (r, g, b)). set (d := l - L). unfold w3c_clip.
  assert (EL : w3c_lum (r + d, g + d, b + d) == l) by (subst d; unfold L, w3c_lum; ring).
  pose proof (min3_shift r g b d) as EN. pose proof (max3_shift r g b d) as EX.
  set (n' := min3 (r + d, g + d, b + d)) in *. set (x' := max3 (r + d, g + d, b + d)) in *. set (l' := w3c_lum (r + d, g + d, b + d)) in *.
  set (n := min3 (r, g, b)) in *. set (x := max3 (r, g, b)) in *.
  unfold lowered, raised.
  rewrite <- (Qltb_comp n' 0 (l - (L - n)) 0) by (rewrite ?EN; subst d; ring).
  rewrite <- (Qltb_comp 1 x' 1 (l + (x - L))) by (rewrite ?EX; subst d; ring).
  destruct (Qltb n' 0), (Qltb 1 x'); cbn [map3]; repeat split; rewrite ?EL, ?EN, ?EX; subst d; unfold Qdiv.
  all: try (setoid_replace (l - (n + (l - L))) with (L - n) by ring).
  all: try (setoid_replace (x + (l - L) - l) with (x - L) by ring).
  all: ring.
Qed.

Lemma set_luminocity_ok x y z lm r g b l :
  near3 (x, y, z) (r, g, b) u0 -> near lm l (8 * u0) -> in_range (r, g, b) -> 0 <= l <= 255 ->
  1 <= w3c_sat (r, g, b) ->
  near3 (set_luminocity x y z lm) (w3c_set_lum 1 (r, g, b) l) (21000000 * u0).
Proof.
  intros (Hx & Hy & Hz) Hlm (Rr & Rg & Rb) Hl Hs.
  pose proof (set_lum_closed r g b l) as CF. cbv zeta in CF.
  pose proof (extremes r g b) as (X1 & X2). unfold w3c_sat in Hs.
  pose proof (min3_spec r g b) as (A1 & A2 & A3 & A4). pose proof (max3_spec r g b) as (B1 & B2 & B3 & B4).
  assert (LR : 0 <= w3c_lum (r, g, b) <= 255) by (unfold w3c_lum; lra).
  assert (NL : near (luminosity x y z) (w3c_lum (r, g, b)) (9 * u0)).
  { eapply near_weaken; [apply (luminosity_near x y z r g b u0 256); try assumption; q|q]. }
  assert (ND : near (fsub lm (luminosity x y z)) (l - w3c_lum (r, g, b)) (18 * u0)).
  { eapply (near_sub_le _ _ _ _ _ _ 256); [exact Hlm|exact NL|q..]. }
  unfold set_luminocity. cbv zeta. set (dl := fsub lm (luminosity x y z)) in *. set (L := w3c_lum (r, g, b)) in *.
  assert (N1 : near (fadd x dl) (r + (l - L)) (22 * u0)) by (eapply (near_add_le _ _ _ _ _ _ 512); [exact Hx|exact ND|q..]).
  assert (N2 : near (fadd y dl) (g + (l - L)) (22 * u0)) by (eapply (near_add_le _ _ _ _ _ _ 512); [exact Hy|exact ND|q..]).
  assert (N3 : near (fadd z dl) (b + (l - L)) (22 * u0)) by (eapply (near_add_le _ _ _ _ _ _ 512); [exact Hz|exact ND|q..]).
  rewrite clip_color_channels. cbv zeta.
  assert (NM : near (luminosity (fadd x dl) (fadd y dl) (fadd z dl)) l (38 * u0)).
  { apply (near_eq _ (w3c_lum (r + (l - L), g + (l - L), b + (l - L)))); [unfold L, w3c_lum; ring|].
    eapply near_weaken; [apply (luminosity_near _ _ _ _ _ _ (22 * u0) 512); try eassumption; q|q]. }
  pose proof (near_min _ _ _ _ _ N1 (near_min _ _ _ _ _ N2 N3)) as NN.
  pose proof (near_max _ _ _ _ _ N1 (near_max _ _ _ _ _ N2 N3)) as NX.
  change (near (fmin (fadd x dl) (fmin (fadd y dl) (fadd z dl))) (min3 (r + (l - L), g + (l - L), b + (l - L))) (22 * u0)) in NN.
  change (near (fmax (fadd x dl) (fmax (fadd y dl) (fadd z dl))) (max3 (r + (l - L), g + (l - L), b + (l - L))) (22 * u0)) in NX.
  apply (near_eq _ _ (l - (L - min3 (r, g, b)))) in NN; [|rewrite min3_shift; ring].
  apply (near_eq _ _ (l + (max3 (r, g, b) - L))) in NX; [|rewrite max3_shift; ring].
  assert (G : forall v w, near v (w + (l - L)) (22 * u0) -> min3 (r, g, b) <= w <= max3 (r, g, b) ->
    near (clip_channel (luminosity (fadd x dl) (fadd y dl) (fadd z dl)) (fmin (fadd x dl) (fmin (fadd y dl) (fadd z dl)))
      (fmax (fadd x dl) (fmax (fadd y dl) (fadd z dl))) v)
     (l + raised (lowered (w - L) l (L - min3 (r, g, b))) l (max3 (r, g, b) - L)) (21000000 * u0)).
  { intros v w Nv Hw. apply clip_channel_ok; try assumption; [|destruct A4 as [A4|[A4|A4]], B4 as [B4|[B4|B4]]; lra|lra..].
    apply (near_eq _ (w + (l - L))); [ring|exact Nv]. }
  destruct (w3c_set_lum 1 (r, g, b) l) as [[x' y'] z']. destruct CF as (C1 & C2 & C3).
  split; [|split].
  - apply (near_eq _ _ _ _ (Qeq_sym _ _ C1)). apply G; [exact N1|lra].
  - apply (near_eq _ _ _ _ (Qeq_sym _ _ C2)). apply G; [exact N2|lra].
  - apply (near_eq _ _ _ _ (Qeq_sym _ _ C3)). apply G; [exact N3|lra].
Qed.

(** ** The byte *)
Lemma trunc_towards t w : trunc_of t w -> t = towards_zero w.
Proof.
  assert (FU : forall n q, inject_Z n <= q < inject_Z n + 1 -> Qfloor q = n).
  { intros n q [H1 H2]. pose proof (Qfloor_le q) as F1. pose proof (Qlt_floor q) as F2.
    assert (K1 : inject_Z (Qfloor q) < inject_Z (n + 1)) by (rewrite inject_Z_plus; change (inject_Z 1) with 1; lra).
    assert (K2 : inject_Z n < inject_Z (Qfloor q + 1)) by lra.
    rewrite <- Zlt_Qlt in K1, K2. lia. }
  intro H. unfold towards_zero. destruct (Qle_bool 0 w) eqn:E.
  - apply Qle_bool_iff in E. destruct H as [[_ H]|[H0 H]]; [symmetry; now apply FU|].
    assert (w == 0) by lra. assert (T : inject_Z t < inject_Z 1 /\ inject_Z (-1) < inject_Z t).
    { change (inject_Z 1) with 1. change (inject_Z (-1)) with (-1). lra. }
    rewrite <- !Zlt_Qlt in T. replace t with 0%Z by lia. symmetry. apply FU. change (inject_Z 0) with 0. lra.
  - assert (N : w < 0) by (apply Qnot_le_lt; intro K; apply Qle_bool_iff in K; congruence).
    destruct H as [[K _]|[_ H]]; [lra|]. rewrite (FU (- t)%Z); [lia|]. rewrite inject_Z_opp. lra.
Qed.
Lemma channel_byte v x : near v x (21000000 * u0) -> -3000 <= x <= 3000 ->
  wrapped_byte x (as_u8 (f_as_i32 (fmul v (f_of_Z 255)))).
Proof.
  intros Hv Hx.
  assert (N : near (fmul v (f_of_Z 255)) (x * 255) (1#1000)).
  { eapply (near_mul_le _ _ _ _ _ _ 3000 255 1000000); [exact Hv|apply (f_of_Z_near 255); reflexivity|lra|split; discriminate|q..]. }
  exists (fval (fmul v (f_of_Z 255))). destruct N as [F N]. split; [lra|].
  unfold as_u8. f_equal. apply trunc_towards, f_as_i32_ok; [exact F|]. apply Qabs_Qle_condition.
  change (inject_Z (2 ^ 30)) with (1073741824#1). lra.
Qed.
Lemma set_lum_range r g b l : in_range (r, g, b) -> 0 <= l <= 255 -> 1 <= w3c_sat (r, g, b) ->
  let '(x, y, z) := w3c_set_lum 1 (r, g, b) l in -3000 <= x <= 3000 /\ -3000 <= y <= 3000 /\ -3000 <= z <= 3000.
Proof.
  intros (Rr & Rg & Rb) Hl Hs.
  pose proof (set_lum_closed r g b l) as CF. cbv zeta in CF.
  pose proof (extremes r g b) as (X1 & X2). unfold w3c_sat in Hs.
  pose proof (min3_spec r g b) as (A1 & A2 & A3 & A4). pose proof (max3_spec r g b) as (B1 & B2 & B3 & B4).
  assert (LR : 0 <= w3c_lum (r, g, b) <= 255) by (unfold w3c_lum; lra).
  set (L := w3c_lum (r, g, b)) in *. set (n := min3 (r, g, b)) in *. set (x := max3 (r, g, b)) in *.
  assert (N0 : 0 <= n) by (destruct A4 as [A4|[A4|A4]]; lra). assert (X0 : x <= 255) by (destruct B4 as [B4|[B4|B4]]; lra).
  assert (G : forall w, n <= w <= x -> -3000 <= l + raised (lowered (w - L) l (L - n)) l (x - L) <= 3000).
  { intros w Hw. pose proof (lowered_range (w - L) l (L - n) (x - L) ltac:(lra) ltac:(lra) ltac:(lra) ltac:(lra)) as R.
    set (k := lowered (w - L) l (L - n)) in *. unfold raised. destruct (Qltb 1 (l + (x - L))); [|lra].
    assert (- (2066) <= k * (1 - l) / (x - L) <= 2066); [|lra].
    apply (div_bound _ _ 2066); [lra|]. split; nra. }
  destruct (w3c_set_lum 1 (r, g, b) l) as [[x' y'] z']. destruct CF as (-> & -> & ->).
  split; [|split]; apply G; lra.
Qed.

(** ** Bytes as floats *)
Lemma flt_unique x y : flt x -> flt y -> fval x == fval y -> ~ fval x == 0 -> x = y.
Proof.
  intros Hx Hy E NZ. pose proof (fcompare_ok x y Hx Hy) as C. destruct Hx as [Fx _], Hy as [Fy _].
  destruct x as [sx|sx| |sx mx ex]; try contradiction; [now elim NZ|].
  destruct y as [sy|sy| |sy my ey]; try contradiction.
  cbn [SFcompare] in C. pose proof (mag_pos mx ex). pose proof (mag_pos my ey). cbn [fval] in *.
  destruct sx, sy; cbn [sign] in *; try lra.
  - destruct (Z.compare_spec ex ey) as [->|L|L]; [|lra..].
    change (Pos.compare_cont Eq mx my) with (Pos.compare mx my) in C. destruct (Pos.compare_spec mx my) as [->|M|M]; cbn [CompOpp] in C; [reflexivity|lra..].
  - destruct (Z.compare_spec ex ey) as [->|L|L]; [|lra..].
    change (Pos.compare_cont Eq mx my) with (Pos.compare mx my) in C. destruct (Pos.compare_spec mx my) as [->|M|M]; [reflexivity|lra..].
Qed.
Local Open Scope Z_scope.
Definition small (n : Z) : Prop := Z.abs n < 2 ^ 40.
Lemma small_near n : small n -> flt (f_of_Z n) /\ (fval (f_of_Z n) == inject_Z n)%Q.
Proof. intro H. unfold small in H. destruct (f_of_Z_near n ltac:(lia)) as [F E]. split; [exact F|lra]. Qed.
Lemma small_big n : small n -> (Qabs (fval (f_of_Z n)) <= big)%Q.
Proof.
  intro H. destruct (small_near n H) as [_ ->]. change (Qabs (inject_Z n)) with (inject_Z (Z.abs n)).
  apply (Qle_trans _ (p2 40)); [|apply p2_le; lia]. rewrite p2_Z by lia. rewrite <- Zle_Qle. unfold small in H. lia.
Qed.
Lemma int_nonzero n : n <> 0 -> (~ inject_Z n == 0)%Q.
Proof. intros H E. change 0%Q with (inject_Z 0) in E. apply (proj1 (inject_Z_injective n 0)) in E. exact (H E). Qed.
Lemma exact_int r x n : rounds r x -> (x == inject_Z n)%Q -> small n -> (fval r == inject_Z n)%Q.
Proof.
  intros (_ & _ & X) E H. rewrite <- E. apply (X n 0); [lia| |rewrite E; change (p2 0) with 1%Q; ring].
  rewrite E. change (Qabs (inject_Z n)) with (inject_Z (Z.abs n)). rewrite p2_Z by lia. rewrite <- Zlt_Qlt. unfold small in H. lia.
Qed.
Lemma fltb_int a b : small a -> small b -> fltb (f_of_Z a) (f_of_Z b) = (a <? b).
Proof.
  intros Ha Hb. destruct (small_near a Ha) as [Fa Ea], (small_near b Hb) as [Fb Eb].
  pose proof (fltb_ok _ _ Fa Fb) as H. destruct (fltb _ _); rewrite Ea, Eb in H.
  - rewrite <- Zlt_Qlt in H. lia.
  - rewrite <- Zle_Qle in H. lia.
Qed.
Lemma fmin_int a b : small a -> small b -> fmin (f_of_Z a) (f_of_Z b) = f_of_Z (Z.min a b).
Proof.
  intros Ha Hb. unfold fmin. rewrite !flt_not_nan by (apply small_near; assumption). rewrite fltb_int by assumption.
  destruct (Z.ltb_spec b a); f_equal; lia.
Qed.
Lemma fmax_int a b : small a -> small b -> fmax (f_of_Z a) (f_of_Z b) = f_of_Z (Z.max a b).
Proof.
  intros Ha Hb. unfold fmax. rewrite !flt_not_nan by (apply small_near; assumption). rewrite fltb_int by assumption.
  destruct (Z.ltb_spec a b); f_equal; lia.
Qed.
Lemma fsub_same x : finite x -> (match x with S754_zero s => s = false | _ => True end) -> fsub x x = S754_zero false.
Proof.
  destruct x as [s|s| |s m e]; try contradiction; intros _ H; [subst; reflexivity|].
  unfold fsub, SFsub. now rewrite Z.sub_diag.
Qed.
Lemma f_of_Z_zero n s : small n -> f_of_Z n = S754_zero s -> n = 0 /\ s = false.
Proof.
  intros H E. destruct (small_near n H) as [_ V]. rewrite E in V. cbn [fval] in V. destruct (Z.eq_dec n 0) as [->|N].
  - split; [reflexivity|]. cbn in E. congruence.
  - apply int_nonzero in N. elim N. now symmetry.
Qed.
Lemma fsub_int a b : small a -> small b -> small (a - b) -> fsub (f_of_Z a) (f_of_Z b) = f_of_Z (a - b).
Proof.
  intros Ha Hb Hd. destruct (Z.eq_dec a b) as [->|N].
  - rewrite Z.sub_diag. apply fsub_same; [apply small_near; exact Hb|].
    destruct (f_of_Z b) eqn:E; try exact I. now apply f_of_Z_zero in E.
  - destruct (small_near a Ha) as [Fa Ea], (small_near b Hb) as [Fb Eb], (small_near (a - b) Hd) as [Fd Ed].
    pose proof (fsub_ok _ _ Fa Fb (small_big a Ha) (small_big b Hb)) as R.
    assert (V : (fval (fsub (f_of_Z a) (f_of_Z b)) == inject_Z (a - b))%Q).
    { eapply exact_int; [exact R| |exact Hd]. rewrite Ea, Eb. unfold Z.sub. rewrite inject_Z_plus, inject_Z_opp. ring. }
    apply flt_unique; [apply R|exact Fd|rewrite V, Ed; reflexivity|rewrite V; apply int_nonzero; lia].
Qed.
Lemma fmul_zero a : flt a -> (0 <= fval a)%Q -> match a with S754_zero s => s = false | _ => True end ->
  fmul a (f_of_Z 0) = f_of_Z 0 /\ fmul (f_of_Z 0) a = f_of_Z 0.
Proof.
  intros [F _] H Z0. destruct a as [s|s| |s m e]; try contradiction.
  - subst s. split; reflexivity.
  - pose proof (mag_pos m e). destruct s; cbn [fval sign] in H; [lra|]. split; reflexivity.
Qed.
Lemma fmul_int a b : 0 <= a -> 0 <= b -> small a -> small b -> small (a * b) -> fmul (f_of_Z a) (f_of_Z b) = f_of_Z (a * b).
Proof.
  intros Pa Pb Ha Hb Hd. destruct (small_near a Ha) as [Fa Ea], (small_near b Hb) as [Fb Eb], (small_near (a * b) Hd) as [Fd Ed].
  assert (Z0 : forall n, small n -> match f_of_Z n with S754_zero s => s = false | _ => True end).
  { intros n Hn. destruct (f_of_Z n) eqn:E; try exact I. now apply f_of_Z_zero in E. }
  assert (NN : forall n, 0 <= n -> (0 <= inject_Z n)%Q) by (intros n Hn; change 0%Q with (inject_Z 0); now rewrite <- Zle_Qle).
  destruct (Z.eq_dec a 0) as [->|Na]; [apply fmul_zero; [exact Fb|rewrite Eb; now apply NN|now apply Z0]|].
  destruct (Z.eq_dec b 0) as [->|Nb]; [rewrite Z.mul_0_r; apply fmul_zero; [exact Fa|rewrite Ea; now apply NN|now apply Z0]|].
  pose proof (fmul_ok _ _ Fa Fb (small_big a Ha) (small_big b Hb)) as R.
  assert (V : (fval (fmul (f_of_Z a) (f_of_Z b)) == inject_Z (a * b))%Q).
  { eapply exact_int; [exact R| |exact Hd]. rewrite Ea, Eb. now rewrite inject_Z_mult. }
  apply flt_unique; [apply R|exact Fd|rewrite V, Ed; reflexivity|rewrite V; apply int_nonzero; lia].
Qed.
Lemma fdiv_zero b : 0 < b -> small b -> fdiv (f_of_Z 0) (f_of_Z b) = f_of_Z 0.
Proof.
  intros Pb Hb. destruct (small_near b Hb) as [[F _] E].
  assert (P : (0 < inject_Z b)%Q) by (change 0%Q with (inject_Z 0); now rewrite <- Zlt_Qlt).
  destruct (f_of_Z b) as [s|s| |s m e]; try contradiction; cbn [fval] in E; [lra|].
  pose proof (mag_pos m e). destruct s; cbn [sign] in E; [lra|reflexivity].
Qed.
