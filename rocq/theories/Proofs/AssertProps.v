(** Where the debug assertions of the HSL modes fail. *)
From Coq Require Import QArith Qpower Qabs Qround Qminmax Lqa.
From Verif.Model Require Import Loader.
From Verif.Spec Require Import Bytes Format BlendSpec HslSpec LoaderSpec ImageSpec RenderSpec Composite AllModes Asserts.
From Verif.Proofs Require Import FloatFacts FloatNear HslFacts SoftLight BlendFacts BlendProps HslProps
  RenderProps CanvasProps ExactProps AllModesProps Profile.
From Coq Require Import Floats.SpecFloat.
Local Open Scope Z_scope.

Definition scaled (v : f64) : Z := f_as_i32 (fmul v (f_of_Z 255)).
Definition ok (v : f64) : Prop := 0 <= scaled v <= 255.

Lemma channel_int v x : near v x (21000000 * u0) -> (-3000 <= x <= 3000)%Q ->
  exists w, (- (1#1000) <= w - 255 * x <= 1#1000)%Q /\ trunc_of (scaled v) w.
Proof.
  intros Hv Hx.
  assert (N : near (fmul v (f_of_Z 255)) (x * 255) (1#1000)).
  { eapply (near_mul_le _ _ _ _ _ _ 3000 255 1000000); [exact Hv|apply (f_of_Z_near 255); reflexivity|lra|split; discriminate|q..]. }
  exists (fval (fmul v (f_of_Z 255))). destruct N as [F N]. split; [lra|].
  apply f_as_i32_ok; [exact F|]. apply Qabs_Qle_condition.
  change (inject_Z (2 ^ 30)) with (1073741824#1). lra.
Qed.
Lemma channel_in v x : near v x (21000000 * u0) -> (0 <= x <= 1)%Q -> ok v.
Proof.
  intros N Hx. destruct (channel_int v x N) as (w & Hw & T); [lra|]. unfold ok.
  assert (K : (iq (-1) < iq (scaled v) < iq 256)%Q).
  { change (iq (-1)) with (-1)%Q. change (iq 256) with 256%Q. unfold trunc_of in T. destruct T as [T|T]; lra. }
  rewrite <- !Zlt_Qlt in K. lia.
Qed.
Lemma channel_over v x : near v x (21000000 * u0) -> (101#100 <= x <= 3000)%Q -> ~ ok v.
Proof.
  intros N Hx. destruct (channel_int v x N) as (w & Hw & T); [lra|]. unfold ok.
  assert (K : (iq 255 < iq (scaled v))%Q).
  { change (iq 255) with 255%Q. unfold trunc_of in T. destruct T as [T|T]; lra. }
  rewrite <- !Zlt_Qlt in K. lia.
Qed.

Definition ok3 (f : f64 * f64 * f64) : Prop := let '(u, v, w) := f in ok u /\ ok v /\ ok w.
Definition exactly (f : f64 * f64 * f64) (c : rgb) (l : Q) : Prop := ok3 f <-> ~ (1 < l /\ min3 c < max3 c)%Q.

Lemma set_lum_low r g b l : (0 <= l <= 1)%Q -> (1 <= w3c_sat (r, g, b))%Q ->
  let '(x, y, z) := w3c_set_lum 1 (r, g, b) l in (0 <= x <= 1 /\ 0 <= y <= 1 /\ 0 <= z <= 1)%Q.
Proof.
  intros Hl Hs. pose proof (set_lum_closed r g b l) as CF. cbv zeta in CF.
  pose proof (extremes r g b) as (X1 & X2). unfold w3c_sat in Hs.
  pose proof (min3_spec r g b) as (A1 & A2 & A3 & A4). pose proof (max3_spec r g b) as (B1 & B2 & B3 & B4).
  set (L := w3c_lum (r, g, b)) in *. set (n := min3 (r, g, b)) in *. set (x := max3 (r, g, b)) in *.
  assert (G : forall w, (n <= w <= x)%Q -> (0 <= l + raised (lowered (w - L) l (L - n)) l (x - L) <= 1)%Q).
  { intros w Hw. assert (K : (- l <= lowered (w - L) l (L - n) <= x - L)%Q).
    { unfold lowered. pose proof (Qltb_spec (l - (L - n)) 0) as S. destruct (Qltb _ _); [|lra].
      set (p := (L - n)%Q) in *. assert (P : (0 < p)%Q) by lra. split.
      - apply Qle_shift_div_l; [exact P|]. assert ((- p) * l <= (w - L) * l)%Q by (apply Qmult_le_compat_r; subst p; lra). lra.
      - apply Qle_shift_div_r; [exact P|]. set (qq := (x - L)%Q) in *. assert ((w - L) * l <= qq * l)%Q by (apply Qmult_le_compat_r; subst qq; lra).
        assert (qq * l <= qq * p)%Q by (apply Qmult_le_l; subst qq; lra). lra. }
    set (k := lowered (w - L) l (L - n)) in *. unfold raised. pose proof (Qltb_spec 1 (l + (x - L))) as S. destruct (Qltb _ _); [|lra].
    set (qq := (x - L)%Q) in *. assert (P : (0 < qq)%Q) by lra.
    assert (- l <= k * (1 - l) / qq <= 1 - l)%Q; [|lra]. split.
    - apply Qle_shift_div_l; [exact P|]. assert ((- l) * (1 - l) <= k * (1 - l))%Q by (apply Qmult_le_compat_r; lra).
      assert (l * (1 - l) <= l * qq)%Q by (destruct (Qlt_le_dec 0 l); [apply Qmult_le_l; lra|assert (l == 0)%Q as -> by lra; lra]). lra.
    - apply Qle_shift_div_r; [exact P|]. assert (k * (1 - l) <= qq * (1 - l))%Q by (apply Qmult_le_compat_r; lra). lra. }
  destruct (w3c_set_lum 1 (r, g, b) l) as [[x' y'] z']. destruct CF as (-> & -> & ->).
  split; [|split]; apply G; lra.
Qed.
Lemma set_lum_high r g b l : (1 < l)%Q -> (1 <= w3c_sat (r, g, b))%Q ->
  let '(x, y, z) := w3c_set_lum 1 (r, g, b) l in (l <= x \/ l <= y \/ l <= z)%Q.
Proof.
  intros Hl Hs. pose proof (set_lum_closed r g b l) as CF. cbv zeta in CF.
  pose proof (extremes r g b) as (X1 & X2). unfold w3c_sat in Hs.
  pose proof (min3_spec r g b) as (A1 & A2 & A3 & A4). pose proof (max3_spec r g b) as (B1 & B2 & B3 & B4).
  set (L := w3c_lum (r, g, b)) in *. set (n := min3 (r, g, b)) in *. set (x := max3 (r, g, b)) in *.
  assert (G : forall w, (w == n)%Q -> (l <= l + raised (lowered (w - L) l (L - n)) l (x - L))%Q).
  { intros w Hw. assert (K : (lowered (w - L) l (L - n) <= 0)%Q).
    { unfold lowered. destruct (Qltb _ _); [|lra]. set (p := (L - n)%Q) in *. assert (P : (0 < p)%Q) by lra.
      apply Qle_shift_div_r; [exact P|]. assert (E : (w - L == - p)%Q) by (subst p; lra). rewrite E.
      assert (0 <= p * l)%Q by (apply Qmult_le_0_compat; lra). lra. }
    set (k := lowered (w - L) l (L - n)) in *. unfold raised. pose proof (Qltb_spec 1 (l + (x - L))) as S. destruct (Qltb _ _); [|lra].
    set (qq := (x - L)%Q) in *. assert (P : (0 < qq)%Q) by lra. assert (0 <= k * (1 - l) / qq)%Q; [|lra].
    apply Qle_shift_div_l; [exact P|]. assert (0 <= (- k) * (l - 1))%Q by (apply Qmult_le_0_compat; lra). lra. }
  destruct (w3c_set_lum 1 (r, g, b) l) as [[x' y'] z']. destruct CF as (C1 & C2 & C3).
  destruct A4 as [A4|[A4|A4]]; [left; rewrite C1|right; left; rewrite C2|right; right; rewrite C3]; apply G; lra.
Qed.

Lemma gray_exactly g l r1 g1 b1 (c : rgb) : is_byte g -> is_byte r1 -> is_byte g1 -> is_byte b1 -> (l == w3c_lum (iq r1, iq g1, iq b1))%Q ->
  Qltb (min3 c) (max3 c) = false ->
  exactly (set_luminocity (f_of_Z g) (f_of_Z g) (f_of_Z g) (luminosity (f_of_Z r1) (f_of_Z g1) (f_of_Z b1))) c l.
Proof.
  intros Hg Hr1 Hg1 Hb1 El HC. pose proof (lum_int r1 g1 b1) as LI. rewrite <- El in LI.
  pose proof (lum_near r1 g1 b1 Hr1 Hg1 Hb1) as LN. apply (near_eq _ _ _ _ (Qeq_sym _ _ El)) in LN.
  assert (HN : (~ (1 < l /\ min3 c < max3 c))%Q).
  { intros [_ K]. pose proof (Qltb_spec (min3 c) (max3 c)) as S. rewrite HC in S. lra. }
  unfold exactly. split; [intros _; exact HN|intros _].
  destruct (Z.eq_dec (30 * r1 + 59 * g1 + 11 * b1) 0) as [E|N].
  - unfold is_byte in Hr1, Hg1, Hb1. assert (r1 = 0) by lia. assert (g1 = 0) by lia. assert (b1 = 0) by lia. subst r1 g1 b1.
    pose proof (gray_black_eq g Hg) as B. unfold gray_black, black_lum in B.
    destruct (set_luminocity _ _ _ _) as [[u v] w]. cbv zeta in B. unfold ok3, ok, scaled.
    destruct (Z.eqb_spec (f_as_i32 (fmul u (f_of_Z 255))) 0) as [->|]; [|discriminate].
    destruct (Z.eqb_spec (f_as_i32 (fmul v (f_of_Z 255))) 0) as [->|]; [|discriminate].
    destruct (Z.eqb_spec (f_as_i32 (fmul w (f_of_Z 255))) 0) as [->|]; [|discriminate]. lia.
  - assert (L : (11#100 <= l <= 255)%Q).
    { assert (iq 11 <= iq (30 * r1 + 59 * g1 + 11 * b1) <= iq 25500)%Q by (rewrite <- !Zle_Qle; unfold is_byte in *; lia).
      rewrite <- LI in H. change (iq 11) with 11%Q in H. change (iq 25500) with 25500%Q in H. lra. }
    destruct (gray_channel _ l g _ Hg LN L LI) as (w & -> & H).
    assert (ok w); [|now split].
    destruct H as [H|[H ->]].
    + eapply (channel_in w (Qmin l 1)); [eapply near_weaken; [exact H|q]|].
      destruct (Q.min_spec l 1) as [[K ->]|[K ->]]; lra.
    + split; discriminate.
Qed.
Lemma colour_exactly x y z (c : rgb) l r1 g1 b1 : near3 (x, y, z) c u0 -> in_range c -> (1 <= w3c_sat c)%Q ->
  is_byte r1 -> is_byte g1 -> is_byte b1 -> (l == w3c_lum (iq r1, iq g1, iq b1))%Q ->
  exactly (set_luminocity x y z (luminosity (f_of_Z r1) (f_of_Z g1) (f_of_Z b1))) c l.
Proof.
  destruct c as [[r g] b]. intros N R S Hr1 Hg1 Hb1 El.
  pose proof (lum_int r1 g1 b1) as LI. rewrite <- El in LI.
  pose proof (lum_near r1 g1 b1 Hr1 Hg1 Hb1) as LN. apply (near_eq _ _ _ _ (Qeq_sym _ _ El)) in LN.
  assert (L : (0 <= l <= 255)%Q).
  { pose proof (byte_range r1 Hr1). pose proof (byte_range g1 Hg1). pose proof (byte_range b1 Hb1). rewrite El. unfold w3c_lum. lra. }
  pose proof (set_luminocity_ok x y z _ r g b l N LN R L S) as H. pose proof (set_lum_range r g b l R L S) as B.
  pose proof (set_lum_low r g b l) as Lo. pose proof (set_lum_high r g b l) as Hi.
  unfold exactly. destruct (set_luminocity _ _ _ _) as [[u v] w]. destruct (w3c_set_lum 1 (r, g, b) l) as [[x' y'] z'].
  destruct H as (H1 & H2 & H3), B as (B1 & B2 & B3). unfold ok3. destruct (Qlt_le_dec 1 l) as [G|G].
  - assert (G' : (101#100 <= l)%Q).
    { set (n := 30 * r1 + 59 * g1 + 11 * b1) in *. assert (K : (iq 100 < iq n)%Q) by (rewrite <- LI; change (iq 100) with 100%Q; lra).
      rewrite <- Zlt_Qlt in K. assert (K2 : (iq 101 <= iq n)%Q) by (rewrite <- Zle_Qle; lia). rewrite <- LI in K2. change (iq 101) with 101%Q in K2. lra. }
    split.
    + intros (O1 & O2 & O3). destruct (Hi G S) as [K|[K|K]].
      * destruct (channel_over u x' H1 ltac:(lra) O1).
      * destruct (channel_over v y' H2 ltac:(lra) O2).
      * destruct (channel_over w z' H3 ltac:(lra) O3).
    + intro K. destruct K. split; [exact G|]. unfold w3c_sat in S. lra.
  - destruct (Lo ltac:(lra) S) as (L1 & L2 & L3). split.
    + intros _ [K _]. lra.
    + intros _. repeat split; eapply channel_in; eassumption.
Qed.
Lemma bytes_exactly r g b l r1 g1 b1 : is_byte r -> is_byte g -> is_byte b -> is_byte r1 -> is_byte g1 -> is_byte b1 -> (l == w3c_lum (iq r1, iq g1, iq b1))%Q ->
  exactly (set_luminocity (f_of_Z r) (f_of_Z g) (f_of_Z b) (luminosity (f_of_Z r1) (f_of_Z g1) (f_of_Z b1))) (iq r, iq g, iq b) l.
Proof.
  intros Hr Hg Hb Hr1 Hg1 Hb1 El. destruct (Z.eq_dec (lo r g b) (hi r g b)) as [E|N].
  - assert (g = r) by (unfold lo, hi in E; lia). assert (b = r) by (unfold lo, hi in E; lia). subst g b.
    apply gray_exactly; try assumption. rewrite (Qltb_comp _ _ _ _ (min3_int r r r) (max3_int r r r)), Qltb_int. lia.
  - apply colour_exactly; try assumption.
    + repeat split; now apply int_near.
    + repeat split; now apply byte_range.
    + rewrite sat_int. change 1%Q with (iq 1). rewrite <- Zle_Qle. unfold lo, hi in *. lia.
Qed.
Lemma saturated_exactly r g b s t l r1 g1 b1 : is_byte r -> is_byte g -> is_byte b -> is_byte t -> (s == iq t)%Q ->
  is_byte r1 -> is_byte g1 -> is_byte b1 -> (l == w3c_lum (iq r1, iq g1, iq b1))%Q ->
  exactly (let '(x, y, z) := set_saturation (f_of_Z r) (f_of_Z g) (f_of_Z b) (f_of_Z t) in
       set_luminocity x y z (luminosity (f_of_Z r1) (f_of_Z g1) (f_of_Z b1))) (ase_set_sat (iq r, iq g, iq b) s) l.
Proof.
  intros Hr Hg Hb Ht Es Hr1 Hg1 Hb1 El. destruct (set_saturation_ok r g b s t Hr Hg Hb Ht Es) as (N & R & H).
  destruct (set_saturation _ _ _ _) as [[x y] z]. set (c := ase_set_sat _ s) in *. destruct H as [H|[E V]].
  - now apply colour_exactly.
  - injection E as -> -> ->. apply (gray_exactly 0); try assumption; [unfold is_byte; lia|].
    destruct c as [[cx cy] cz]. destruct V as (V1 & V2 & V3).
    pose proof (Qltb_spec (min3 (cx, cy, cz)) (max3 (cx, cy, cz))) as C.
    pose proof (min3_spec cx cy cz) as (_ & _ & _ & A). pose proof (max3_spec cx cy cz) as (_ & _ & _ & B).
    destruct (Qltb _ _); [|reflexivity]. exfalso. destruct A as [A|[A|A]], B as [B|[B|B]]; lra.
Qed.
Lemma hsl_floats_exactly m back front : hsl m -> is_px back -> is_px front ->
  let '(c, l) := recoloured ase_set_sat m (rgb_of back) (rgb_of front) in exactly (hsl_floats m back front) c l.
Proof.
  intros Hm (B1 & B2 & B3 & _) (F1 & F2 & F3 & _). destruct m; try contradiction; cbn [recoloured hsl_floats]; unfold rgb_of.
  - rewrite saturation_int by assumption. apply saturated_exactly; try assumption; [now apply spread_byte|apply sat_int|reflexivity].
  - rewrite saturation_int by assumption. apply saturated_exactly; try assumption; [now apply spread_byte|apply sat_int|reflexivity].
  - apply bytes_exactly; try assumption. reflexivity.
  - apply bytes_exactly; try assumption. reflexivity.
Qed.

Lemma hsl_asserts m back front o c : hsl m -> is_px back -> is_px front -> is_byte o -> debug c = true ->
  exists f, blend_mode_to_blend_fn c m = Ok f /\
    (f back front o = Panic PDebugAssert <-> asserts_fail m back front) /\
    ((exists r, f back front o = Ok r) <-> ~ asserts_fail m back front).
Proof.
  intros Hm Hb Hf Ho Hc. pose proof (hsl_floats_exactly m back front Hm Hb Hf) as X. unfold asserts_fail.
  destruct (recoloured _ _ _ _) as [col l]. unfold exactly in X.
  destruct (hsl_floats_shape m back front c Hm) as (g & E & G). exists (blender c g). split; [exact E|].
  assert (Hn : exists n, normal c back front o = Ok n) by (eexists; now apply normal_eq).
  destruct (Z.eq_dec (pa back) 0) as [Z0|Z0].
  { assert (Ob : blender c g back front o = normal c back front o).
    { unfold blender. rewrite Z0. reflexivity. }
    rewrite Ob. destruct Hn as [n ->]. split; (split; [discriminate || now intros|]); [now intros [? _]|]. intros _. eauto. }
  destruct (hsl_outcomes m back front o Hm Hb Hf Ho) as (r & Hr & _ & R2). destruct (R2 c Hc) as (f' & E' & HO).
  rewrite E in E'. injection E' as <-.
  assert (P : blender c g back front o = Panic PDebugAssert <-> pa back <> 0 /\ (2 <= pa front \/ (1 < l /\ min3 col < max3 col)%Q)).
  { destruct (hsl_floats m back front) as [[x y] z]. specialize (G o).
    assert (Px : px_from_f64 c x y z (f_of_Z (pa front)) =
      if negb ((0 <=? scaled x) && (scaled x <=? 255) && ((0 <=? scaled y) && (scaled y <=? 255)) && ((0 <=? scaled z) && (scaled z <=? 255)) &&
               ((0 <=? pa front * 255) && (pa front * 255 <=? 255)))
      then Panic PDebugAssert else Ok (mkpx (as_u8 (scaled x)) (as_u8 (scaled y)) (as_u8 (scaled z)) (as_u8 (pa front * 255)))).
    { unfold px_from_f64. cbv zeta. fold (hsl_alpha (pa front)). rewrite hsl_alpha_eq by apply Hf. unfold px_from_i32. cbv zeta. rewrite Hc. reflexivity. }
    rewrite Px in G. clear Px.
    assert (Fa : 0 <= pa front) by (destruct Hf as (_ & _ & _ & F4); unfold is_byte in F4; lia).
    match type of G with context [negb ?bb] => destruct bb eqn:B end; cbn [negb bind] in G.
    - assert (O3 : ok3 (x, y, z) /\ pa front < 2) by (unfold ok3, ok; rewrite !andb_true_iff, !Z.leb_le in B; lia).
      assert (NP : blender c g back front o <> Panic PDebugAssert).
      { set (p := mkpx (as_u8 (scaled x)) (as_u8 (scaled y)) (as_u8 (scaled z)) (as_u8 (pa front * 255))) in *.
        assert (Hp : is_px p) by (split; [|split; [|split]]; apply as_u8_byte).
        rewrite (blender_eq c g back front p o); try assumption; [discriminate|]. intros _. exact G. }
      split; [intro K; contradiction|]. intros [_ [K|K]]; [lia|]. exfalso. exact (proj1 X (proj1 O3) K).
    - split.
      + intros _. split; [exact Z0|]. destruct (Z_le_dec 2 (pa front)) as [K|K]; [now left|right].
        assert (NO : ~ ok3 (x, y, z)).
        { intros (O1 & O2 & O3). unfold ok in O1, O2, O3. assert (pa front = 0 \/ pa front = 1) as [E1|E1] by lia; rewrite E1 in B; lia. }
        destruct (Qlt_le_dec 1 l) as [K1|K1]; [|exfalso; apply NO, X; intros [? _]; lra].
        destruct (Qlt_le_dec (min3 col) (max3 col)) as [K2|K2]; [now split|]. exfalso; apply NO, X; intros [_ ?]; lra.
      + intros _. unfold blender. destruct (Z.eqb_spec (pa back) 0); [lia|]. cbn [negb].
        rewrite normal_eq by assumption. cbn [bind]. rewrite G. reflexivity. }
  split; [exact P|]. destruct HO as [HO|HO].
  - split; [intros [r' K]; congruence|]. intro K. apply P in HO. contradiction.
  - split; [|eauto]. intros _ K. apply P in K. congruence.
Qed.

(** ** Frames *)
Section Frames.
Context (w : Z).
Let d := {| debug := true; usize_bits := w |}.
Let r := {| debug := false; usize_bits := w |}.
Context (i : bytes) (s : ase_file).
Context (Hc : cfg_ok d) (Hi : is_bytes i) (Ha : addressable d i) (Hload : load d i = Ok s).
Context (inflate : inflater) (Hinf : inflate_ok inflate) (sel : layer_selection).

Let calm := calm r inflate s sel.

Lemma composed_builds x y cels : forall back p, is_px back ->
  composed d inflate s sel x y cels back p <-> composed r inflate s sel x y cels back p /\ calm x y cels back.
Proof.
  induction cels as [|cel cels IH]; intros back p Hb.
  { split.
    - intro H. inversion H; subst. split; [constructor|]. intros [|? ?]; discriminate.
    - intros [H _]. inversion H; subst. constructor. }
  assert (Skip : drawn s sel cel = None \/ covers cel x y = false ->
    (calm x y (cel :: cels) back <-> calm x y cels back)).
  { intro Hs. split.
    - intros H before cel' after l image front mid -> H1 H2 H3 H4 H5. apply (H (cel :: before) cel' after l image front mid eq_refl H1 H2 H3 H4).
      now apply composed_skip.
    - intros H [|z before] cel' after l image front mid E H1 H2 H3 H4 H5; cbn in E; injection E as -> ->.
      + destruct Hs; congruence.
      + apply (H before cel' after l image front mid eq_refl H1 H2 H3 H4). inversion H5; subst; [assumption|]. destruct Hs; congruence. }
  assert (Draw : forall l image front f mid, drawn s sel cel = Some l -> covers cel x y = true -> cel_image inflate s cel image ->
    pixel (fst (fc_size cel)) image (x - fst (fc_origin cel)) (y - snd (fc_origin cel)) = Some front ->
    blend_mode_to_blend_fn r (ly_blend_mode l) = Ok f -> f back front (ly_opacity l) = Ok mid ->
    (calm x y (cel :: cels) back <-> (hsl (ly_blend_mode l) -> ~ asserts_fail (ly_blend_mode l) back front) /\ calm x y cels mid)).
  { intros l image front f mid H1 H2 H3 H4 H5 H6. split.
    - intro H. split.
      + apply (H [] cel cels l image front back eq_refl H1 H2 H3 H4). constructor.
      + intros before cel' after l' image' front' mid' -> G1 G2 G3 G4 G5.
        apply (H (cel :: before) cel' after l' image' front' mid' eq_refl G1 G2 G3 G4). eapply composed_draw; eassumption.
    - intros [K1 K2] [|z before] cel' after l' image' front' mid' E G1 G2 G3 G4 G5; cbn in E; injection E as -> ->.
      + assert (l' = l) as -> by congruence. assert (image' = image) as -> by (eapply cel_image_unique; eassumption).
        assert (front' = front) as -> by congruence. inversion G5; subst. exact K1.
      + apply (K2 before cel' after l' image' front' mid' eq_refl G1 G2 G3 G4).
        eapply composed_tail; [|exact G5]. eapply composed_draw; try eassumption. constructor. }
  assert (Hr : forall l image front, drawn s sel cel = Some l -> cel_image inflate s cel image ->
    pixel (fst (fc_size cel)) image (x - fst (fc_origin cel)) (y - snd (fc_origin cel)) = Some front -> is_px front /\ is_byte (ly_opacity l)).
  { intros l image front H1 H2 H3. split.
    - eapply pixel_px; [|exact H3]. exact (cel_image_bytes d i s Hc Hi Ha Hload inflate Hinf cel _ H2).
    - eapply layer_opacity; [exact Hc|exact Hi|exact Ha|exact Hload|]. eapply drawn_layer; eassumption. }
  assert (Mode : forall l front f mid, is_px front -> is_byte (ly_opacity l) ->
    blend_mode_to_blend_fn d (ly_blend_mode l) = Ok f /\ f back front (ly_opacity l) = Ok mid <-> 
    (exists f', blend_mode_to_blend_fn r (ly_blend_mode l) = Ok f' /\ f' back front (ly_opacity l) = Ok mid) /\ blend_mode_to_blend_fn d (ly_blend_mode l) = Ok f /\
    (hsl (ly_blend_mode l) -> ~ asserts_fail (ly_blend_mode l) back front)).
  { intros l front f mid Hf Ho. split.
    - intros [E1 E2]. assert (Hm : known_mode (ly_blend_mode l)) by (unfold known_mode; destruct (ly_blend_mode l); try discriminate; cbn; tauto).
      destruct (any_pixel _ back front _ Hm Hb Hf Ho) as (q & _ & _ & R1 & R2). destruct (R1 r eq_refl) as (f' & E1' & E2').
      destruct (R2 d eq_refl) as (f2 & E3 & E4). rewrite E1 in E3. injection E3 as <-.
      assert (q = mid) as -> by (destruct E4 as [[_ E4]|E4]; congruence). split; [eauto|]. split; [exact E1|]. intros Hh Ha'.
      destruct (hsl_asserts _ back front _ d Hh Hb Hf Ho eq_refl) as (f2 & E5 & E6 & _). rewrite E1 in E5. injection E5 as <-.
      apply E6 in Ha'. congruence.
    - intros ((f' & E1 & E2) & E3 & Hh). split; [exact E3|].
      assert (Hm : known_mode (ly_blend_mode l)) by (unfold known_mode; destruct (ly_blend_mode l); try discriminate; cbn; tauto).
      destruct (any_pixel _ back front _ Hm Hb Hf Ho) as (q & _ & _ & R1 & R2). destruct (R1 r eq_refl) as (f2 & E1' & E2').
      rewrite E1 in E1'. injection E1' as <-. assert (q = mid) as -> by congruence.
      destruct (R2 d eq_refl) as (f2 & E4 & E5). rewrite E3 in E4. injection E4 as <-. destruct E5 as [[Hs E5]|E5]; [|exact E5].
      exfalso. destruct (hsl_asserts _ back front _ d Hs Hb Hf Ho eq_refl) as (f2 & E6 & E7 & _). rewrite E3 in E6. injection E6 as <-.
      apply (Hh Hs). now apply E7. }
  assert (Exists : forall l f, blend_mode_to_blend_fn r (ly_blend_mode l) = Ok f -> exists f', blend_mode_to_blend_fn d (ly_blend_mode l) = Ok f').
  { intros l f. destruct (ly_blend_mode l); cbn; intro E; try discriminate; eauto. }
  split.
  - intro H. inversion H as [|? ? ? ? Hs H'|? ? ? l image front f mid ? H1 H2 H3 H4 H5 H6 H']; subst.
    + apply IH in H' as [G1 G2]; [|exact Hb]. split; [now apply composed_skip|now apply Skip].
    + destruct (Hr l image front H1 H3 H4) as [Hf Ho]. destruct (proj1 (Mode l front f mid Hf Ho) (conj H5 H6)) as ((f' & E1 & E2) & _ & Hh).
      assert (Hm : is_px mid) by (eapply any_result; [exact Hb|exact Hf|exact Ho|exact H5|exact H6]).
      apply IH in H' as [G1 G2]; [|exact Hm]. split; [eapply composed_draw; eassumption|].
      apply (Draw l image front f' mid H1 H2 H3 H4 E1 E2). split; assumption.
  - intros [H K]. inversion H as [|? ? ? ? Hs H'|? ? ? l image front f mid ? H1 H2 H3 H4 H5 H6 H']; subst.
    + apply composed_skip; [exact Hs|]. apply IH; [exact Hb|]. split; [exact H'|now apply Skip].
    + destruct (Hr l image front H1 H3 H4) as [Hf Ho]. destruct (proj1 (Draw l image front f mid H1 H2 H3 H4 H5 H6) K) as [K1 K2].
      assert (Hm : is_px mid) by (eapply any_result; [exact Hb|exact Hf|exact Ho|exact H5|exact H6]).
      destruct (Exists l f H5) as [f' E]. destruct (proj2 (Mode l front f' mid Hf Ho)) as [E1 E2]; [split; [eauto|split; assumption]|].
      eapply composed_draw; try eassumption. apply IH; [exact Hm|]. split; assumption.
Qed.

Lemma debug_frames k sf target res : sprite_fits d s -> nth_error (api_frames s) k = Some sf -> is_bytes target ->
  (render_frame d inflate s (Z.of_nat k) target sel = Ok res <->
   render_frame r inflate s (Z.of_nat k) target sel = Ok res /\
   forall x y back, 0 <= x < canvas_width s -> 0 <= y < canvas_height s -> pixel (canvas_width s) target x y = Some back ->
     calm x y (sf_cels sf) back).
Proof.
  intros Hfit Hk Hb.
  assert (Hl' : load r i = Ok s).
  { unfold r. rewrite profile_load; [exact Hload|]. intros q. fold d. rewrite Hload. discriminate. }
  rewrite (render_exactly d i s Hc Hi Ha Hload inflate Hinf Hfit sel k sf target res Hk Hb).
  rewrite (render_exactly r i s Hc Hi Ha Hl' inflate Hinf Hfit sel k sf target res Hk Hb).
  split.
  - intros (H1 & H2 & H3 & H4 & H5). split.
    + repeat (split; [assumption|]). intros x y Hx Hy. destruct (H5 x y Hx Hy) as (back & p & P1 & P2 & P3). exists back, p.
      repeat (split; [assumption|]). apply composed_builds; [eapply pixel_px; eassumption|exact P3].
    + intros x y back Hx Hy Hp. destruct (H5 x y Hx Hy) as (back' & p & P1 & P2 & P3). assert (back' = back) as -> by congruence.
      eapply composed_builds; [eapply pixel_px; eassumption|exact P3].
  - intros ((H1 & H2 & H3 & H4 & H5) & H6). repeat (split; [assumption|]). intros x y Hx Hy.
    destruct (H5 x y Hx Hy) as (back & p & P1 & P2 & P3). exists back, p. repeat (split; [assumption|]).
    apply composed_builds; [eapply pixel_px; eassumption|]. split; [exact P3|]. now apply H6.
Qed.
End Frames.
