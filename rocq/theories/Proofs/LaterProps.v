(** A frame rendered first and put on its background later (C126). *)
From Coq Require Import QArith Qabs Lqa.
From Verif.Model Require Import Loader.
From Verif.Spec Require Import Bytes BlendSpec ImageSpec RenderSpec Ideal Piles Baked Merged Later.
From Verif.Proofs Require Import ImageFacts RenderFacts RenderProps BlendFacts UsageProps BakeProps CanvasProps BlendFacts BlendProps PileProps.
Local Open Scope Q_scope.

(** What all fronts let through *)
Fixpoint through (fs : list (px * Z)) : Q :=
  match fs with [] => 1 | (front, o) :: fs => (1 - strength front o) * through fs end.
Lemma exact_alpha_through fs : forall a, exact_alpha fs a == 1 - (1 - a) * through fs.
Proof.
  induction fs as [|[f o] fs IH]; intro a; cbn [exact_alpha through]; [ring|]. rewrite IH. unfold ideal_alpha. ring.
Qed.
Lemma exact_channel_through ch fs : forall p, exact_channel ch fs p == exact_channel ch fs 0 + p * through fs.
Proof.
  induction fs as [|[f o] fs IH]; intro p; cbn [exact_channel through]; [ring|].
  rewrite (IH (_ + p * _)), (IH (_ + 0 * _)). ring.
Qed.
Lemma exact_alpha_wd fs a b : a == b -> exact_alpha fs a == exact_alpha fs b.
Proof. intro H. now rewrite !exact_alpha_through, H. Qed.
Lemma exact_channel_wd ch fs a b : a == b -> exact_channel ch fs a == exact_channel ch fs b.
Proof. intro H. now rewrite (exact_channel_through ch fs a), (exact_channel_through ch fs b), H. Qed.

Lemma abs_le x y : Qabs x <= y <-> - y <= x /\ x <= y.
Proof. apply Qabs_Qle_condition. Qed.

Lemma inject_unit z : inject_Z z == 255 * unit z.
Proof. unfold unit. rewrite (Qmake_Qdiv z 255). change (inject_Z 255) with 255. field. Qed.

Lemma prod_abs x u m : 0 <= u <= 1 -> Qabs x <= m -> Qabs (u * x) <= m.
Proof.
  intros [U1 U2] H. rewrite Qabs_Qmult, (Qabs_pos u U1). pose proof (Qabs_nonneg x).
  apply Qle_trans with (1 * Qabs x); [now apply Qmult_le_compat_r|]. lra.
Qed.

Definition clear_px : px := mkpx 0 0 0 0.

Lemma later_near c fs back p q p' J : is_px back -> is_px q ->
  pile_within J (2 * J) fs back p -> pile_within J (2 * J) fs clear_px q -> normal c back q 255 = Ok p' ->
  near (2 * J + 1) (5 * J + 2) p p'.
Proof.
  intros Hb Hq [P1 P2] [Q1 Q2] N. assert (B : is_byte 255) by (unfold is_byte; lia).
  destruct (normal_step c back q 255 p' Hb Hq B N) as [_ S].
  pose proof (proj1 (back_exact back)) as B0. specialize (S 0 (unit (pa back)) B0).
  assert (Et : strength q 255 == unit (pa q)).
  { unfold strength. setoid_replace (unit 255) with 1 by reflexivity. ring. }
  pose proof Hb as (Hb1 & Hb2 & Hb3 & Hb4). pose proof Hq as (_ & _ & _ & Hqa).
  pose proof (unit_range _ Hb4) as UA. pose proof (unit_range _ Hqa) as UT.
  unfold ideal_alpha in S. rewrite exact_alpha_through in P1, Q1.
  change (unit (pa clear_px)) with (0 # 255) in Q1. setoid_replace (0 # 255) with 0 in Q1 by reflexivity.
  rewrite Et in S. rewrite (inject_unit (pa p)) in P1. rewrite (inject_unit (pa q)) in Q1. rewrite (inject_unit (pa p')) in S.
  set (A := unit (pa back)) in *. set (t := unit (pa q)) in *. set (K := through fs) in *.
  set (ap := unit (pa p)) in *. set (ap' := unit (pa p')) in *.
  assert (D : Qabs (t - (1 - K)) <= J / 255).
  { rewrite abs_le in *. assert (EJ : J == 255 * (J / 255)) by field. lra. }
  split.
  - rewrite !inject_unit. fold ap ap'.
    assert (DA : Qabs ((1 - A) * (t - (1 - K))) <= J / 255) by (apply prod_abs; [lra|exact D]).
    rewrite abs_le in *. assert (EJ : J == 255 * (J / 255)) by field.
    assert (E : (1 - A) * (t - (1 - K)) == A + t - A * t - (1 - (1 - A) * K)) by ring. rewrite E in DA. lra.
  - intros ch I. specialize (P2 ch I). specialize (Q2 ch I).
    pose proof (channel_step c back q 255 p' ch Hb Hq B N I 0 _ (proj2 (back_exact back) ch)) as C.
    rewrite Et in C. fold t A ap' in C. fold A ap in P2. fold t in Q2.
    change (unit (pa clear_px)) with (0 # 255) in Q2.
    assert (Ez : exact_channel ch fs (inject_Z (ch clear_px) * (0 # 255)) == exact_channel ch fs 0).
    { apply exact_channel_wd. setoid_replace (0 # 255) with 0 by reflexivity. ring. }
    rewrite Ez in Q2. rewrite (exact_channel_through ch fs (_ * A)) in P2. fold K in P2.
    set (X := exact_channel ch fs 0) in *. set (Pb := inject_Z (ch back) * A) in *.
    assert (Hcb : is_byte (ch back)) by (destruct I as [<-|[<-|[<-|[]]]]; assumption).
    assert (DP : Qabs (Pb * (t - (1 - K))) <= J).
    { assert (E : Pb * (t - (1 - K)) == (unit (ch back) * A) * (255 * (t - (1 - K)))) by (unfold Pb; rewrite (inject_unit (ch back)); ring).
      rewrite E. apply prod_abs.
      - pose proof (unit_range _ Hcb) as [V1 V2]. split; [apply Qmult_le_0_compat; [exact V1|apply UA]|].
        apply Qle_trans with (1 * A); [apply Qmult_le_compat_r; [exact V2|apply UA]|lra].
      - rewrite abs_le in *. assert (EJ : J == 255 * (J / 255)) by field. lra. }
    assert (E : Pb * (t - (1 - K)) == Pb * K - Pb * (1 - t)) by ring. rewrite E in DP.
    rewrite abs_le in *. set (u := inject_Z (ch q) * t) in *. set (v := Pb * (1 - t)) in *. set (w := Pb * K) in *.
    fold ap ap'. set (x1 := inject_Z (ch p) * ap) in *. set (x2 := inject_Z (ch p') * ap') in *. clearbody u v w x1 x2 X. lra.
Qed.

Lemma later_exact c fs back p q p' : is_px back -> good_fronts fs -> (length fs <= 1)%nat ->
  normals c fs back p -> normals c fs clear_px q -> normal c back q 255 = Ok p' ->
  p' = p \/ (pa p' = 0 /\ pa p = 0)%Z.
Proof.
  intros Hb G L Np Nq N. assert (B : is_byte 255) by (unfold is_byte; lia). assert (B0 : is_byte 0) by (unfold is_byte; lia).
  destruct fs as [|[f o] [|g fs]]; [| |cbn in L; lia].
  - inversion Np; subst. inversion Nq; subst. unfold normal in N. destruct (Z.eqb_spec (pa p) 0) as [E|E].
    + right. change (pa clear_px) with 0%Z in N. rewrite mul8_eq in N by assumption. cbn [bind] in N.
      split; [injection N as <-; vm_compute; reflexivity|exact E].
    + left. change (pa clear_px =? 0)%Z with true in N. now injection N.
  - left. inversion Np as [|f1 o1 fs1 b1 mid r1 N1 N2]; subst. inversion N2; subst.
    inversion Nq as [|f2 o2 fs2 b2 mid2 r2 N3 N4]; subst. inversion N4; subst.
    inversion G as [|z1 z2 [Gf Go] _]; subst. cbn [fst snd] in *.
    assert (F : faded o f q).
    { unfold normal in N3. change (pa clear_px =? 0)%Z with true in N3. cbv iota in N3.
      destruct Gf as (F1 & F2 & F3 & F4). rewrite mul8_eq in N3 by assumption. cbn [bind] in N3. injection N3 as <-.
      repeat split; try reflexivity. all: apply div255_rounded; unfold is_byte in *; nia. }
    pose proof (mode_faded c BNormal _ back f q o I Hb Gf Go F eq_refl) as E. rewrite <- E in N. congruence.
Qed.

Lemma clear_good : is_px clear_px.
Proof. unfold is_px, is_byte; cbn; lia. Qed.

Lemma normals_px c fs : forall back p, is_px back -> good_fronts fs -> normals c fs back p -> is_px p.
Proof.
  induction fs as [|[f o] fs IH]; intros back p Hb G N.
  - now inversion N; subst.
  - inversion N as [|f1 o1 fs1 b1 mid r1 N1 N2]; subst. inversion G as [|z1 z2 [Gf Go] G']; subst. cbn [fst snd] in *.
    apply (IH mid); [|assumption..]. exact (proj1 (normal_step c back f o mid Hb Gf Go N1)).
Qed.

Section Frame.
  Variables (c : cfg) (i : bytes) (s : ase_file) (inflate : inflater).
  Hypotheses (Hc : cfg_ok c) (Hi : is_bytes i) (Ha : addressable c i) (Hl : load c i = Ok s).
  Hypothesis Hinf : inflate_ok inflate.

  Lemma later_frame sel k sf target r r0 : sprite_fits c s -> nth_error (api_frames s) k = Some sf -> is_bytes target ->
    (forall cel l, In cel (sf_cels sf) -> drawn s sel cel = Some l -> ly_blend_mode l = BNormal) ->
    render_frame c inflate s (Z.of_nat k) target sel = Ok r ->
    render_frame c inflate s (Z.of_nat k) (blank s) sel = Ok r0 ->
    forall x y, (0 <= x < canvas_width s)%Z -> (0 <= y < canvas_height s)%Z ->
    exists back p q p' fs, pixel (canvas_width s) target x y = Some back /\ pixel (canvas_width s) r x y = Some p /\
      pixel (canvas_width s) r0 x y = Some q /\ normal c back q 255 = Ok p' /\
      pile inflate s sel x y (sf_cels sf) fs /\
      ((length fs <= 1)%nat -> p' = p \/ (pa p' = 0 /\ pa p = 0)%Z) /\
      near (2 * inject_Z (Z.of_nat (length fs)) + 1) (5 * inject_Z (Z.of_nat (length fs)) + 2) p p' /\
      forall t, 0 < t -> (forall front o, In (front, o) fs -> t <= strength front o) -> near (2 / t + 1) (5 / t + 2) p p'.
  Proof.
    intros Hfit Hk Hb M Hr Hr0 x y Hx Hy.
    destruct (render_composes c i s Hc Hi Ha Hl inflate Hinf Hfit sel k sf target r Hk Hb Hr x y Hx Hy) as (back & p & E1 & E2 & C).
    destruct (render_composes c i s Hc Hi Ha Hl inflate Hinf Hfit sel k sf (blank s) r0 Hk (zeros_bytes _) Hr0 x y Hx Hy)
      as (back0 & q & F1 & F2 & C0).
    unfold blank, canvas_size in F1. rewrite (zeros_pixel _ _ x y Hx Hy) in F1. injection F1 as <-. change (mkpx 0 0 0 0) with clear_px in C0.
    destruct (composed_pile c i s Hc Hi Ha Hl inflate Hinf sel x y (sf_cels sf) M back p C) as (fs & P1 & P2 & P3).
    destruct (composed_pile c i s Hc Hi Ha Hl inflate Hinf sel x y (sf_cels sf) M clear_px q C0) as (fs0 & Q1 & Q2 & _).
    rewrite <- (pile_unique _ _ _ _ _ _ _ P1 _ Q1) in Q2.
    assert (B : is_px back) by (eapply pixel_px; [exact Hb|exact E1]).
    pose proof (normals_px c fs clear_px q clear_good P3 Q2) as Bq.
    destruct (normal_laws c back q 255 B Bq ltac:(unfold is_byte; lia)) as (p' & N & _).
    exists back, p, q, p', fs. do 5 (split; [assumption|]). split; [intro L; now apply (later_exact c fs back p q)|]. split.
    - apply (later_near c fs back p q p'); try assumption; now apply (pile_linear c); try apply clear_good.
    - intros t T L. assert (E : forall n, n / t == n * (1 / t)) by (intro n; field; lra).
      assert (W : forall b r, is_px b -> normals c fs b r -> pile_within (1 / t) (2 * (1 / t)) fs b r).
      { intros b r' Hb' Hn. destruct (pile_strong c fs b r' t Hb' P3 Hn T L) as [W1 W2]. split; [exact W1|].
        intros ch Ic. rewrite <- (E 2). now apply W2. }
      destruct (later_near c fs back p q p' (1 / t) B Bq (W _ _ B P2) (W _ _ clear_good Q2) N) as [V1 V2]. split.
      + rewrite (E 2). exact V1.
      + intros ch Ic. rewrite (E 5). now apply V2.
  Qed.
End Frame.
