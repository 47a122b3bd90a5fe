(** Rounding errors of many layers. *)
From Coq Require Import QArith Qabs Lqa.
From Verif.Model Require Import Loader.
From Verif.Spec Require Import Bytes BlendSpec ImageSpec RenderSpec Ideal Piles.
From Verif.Proofs Require Import BlendFacts BlendProps LoaderProps FileFinal ImageProps RenderFacts RenderProps CanvasProps IdealProps.
Local Open Scope Q_scope.

Lemma unit_range z : is_byte z -> 0 <= unit z <= 1.
Proof. unfold is_byte, unit, Qle. cbn. lia. Qed.
Lemma strength_range front o : is_px front -> is_byte o -> 0 <= strength front o <= 1.
Proof.
  intros (_ & _ & _ & A) O. pose proof (unit_range _ A) as [A1 A2]. pose proof (unit_range _ O) as [O1 O2]. unfold strength. split.
  - now apply Qmult_le_0_compat.
  - apply Qle_trans with (1 * unit o); [now apply Qmult_le_compat_r|]. rewrite Qmult_1_l. exact O2.
Qed.

(** A step makes errors smaller, and adds its own. *)
Lemma shrink x w u v s k e : 0 <= s <= 1 ->
  Qabs (x - (w + u * (1 - s))) <= k -> Qabs (u - v) <= e -> Qabs (x - (w + v * (1 - s))) <= k + e * (1 - s).
Proof.
  intros S H1 H2. setoid_replace (x - (w + v * (1 - s))) with ((x - (w + u * (1 - s))) + (u - v) * (1 - s)) by ring.
  eapply Qle_trans; [apply Qabs_triangle|]. apply Qplus_le_compat; [exact H1|].
  rewrite Qabs_Qmult. rewrite (Qabs_pos (1 - s)) by lra. apply Qmult_le_compat_r; [exact H2|lra].
Qed.

(** For alphas, and for channels times alpha *)
Lemma normal_step c back front o mid : is_px back -> is_px front -> is_byte o -> normal c back front o = Ok mid -> is_px mid /\
  forall j A, Qabs (inject_Z (pa back) - 255 * A) <= j ->
    Qabs (inject_Z (pa mid) - 255 * ideal_alpha A (strength front o)) <= 1 + j * (1 - strength front o).
Proof.
  intros B F O N. split.
  { destruct (normal_laws c back front o B F O) as (r & N' & R & _). congruence. }
  intros j A J. destruct (normal_ideal c back front o mid B F O N) as [H _].
  pose proof (strength_range front o F O) as S. set (s := strength front o) in *. unfold ideal_alpha in *.
  setoid_replace (255 * (A + s - A * s)) with (255 * s + (255 * A) * (1 - s)) by ring.
  apply (shrink _ _ (inject_Z (pa back))); [exact S| |exact J].
  setoid_replace (255 * s + inject_Z (pa back) * (1 - s)) with (255 * (unit (pa back) + s - unit (pa back) * s)); [exact H|].
  unfold unit. rewrite (Qmake_Qdiv (pa back) 255). change (inject_Z 255) with 255. field.
Qed.
Lemma channel_step c back front o mid ch : is_px back -> is_px front -> is_byte o -> normal c back front o = Ok mid ->
  In ch [pr; pg; pb] ->
  forall k P, Qabs (inject_Z (ch back) * unit (pa back) - P) <= k ->
    Qabs (inject_Z (ch mid) * unit (pa mid) - (inject_Z (ch front) * strength front o + P * (1 - strength front o)))
      <= 2 + k * (1 - strength front o).
Proof.
  intros B F O N I k P K. destruct (normal_ideal c back front o mid B F O N) as [_ H]. specialize (H ch I).
  pose proof (strength_range front o F O) as S. unfold ideal_over in H.
  apply (shrink _ _ (inject_Z (ch back) * unit (pa back))); [exact S|apply Qlt_le_weak; exact H|exact K].
Qed.

Definition good_fronts : list (px * Z) -> Prop := Forall (fun f => is_px (fst f) /\ is_byte (snd f)).

(** Bounds that survive a step survive all. *)
Lemma pile_bound c fs : forall back r, is_px back -> good_fronts fs -> normals c fs back r ->
  forall (bj bk : nat -> Q),
  (forall n front o, In (front, o) fs -> 1 + bj n * (1 - strength front o) <= bj (S n)) ->
  (forall n front o, In (front, o) fs -> 2 + bk n * (1 - strength front o) <= bk (S n)) ->
  forall n A P, Qabs (inject_Z (pa back) - 255 * A) <= bj n ->
  (forall ch, In ch [pr; pg; pb] -> Qabs (inject_Z (ch back) * unit (pa back) - P ch) <= bk n) ->
  Qabs (inject_Z (pa r) - 255 * exact_alpha fs A) <= bj (n + length fs)%nat /\
  forall ch, In ch [pr; pg; pb] -> Qabs (inject_Z (ch r) * unit (pa r) - exact_channel ch fs (P ch)) <= bk (n + length fs)%nat.
Proof.
  induction fs as [|[front o] fs IH]; intros back r B G N bj bk HJ HK n A P Ja Kc; inversion N; subst.
  - cbn [length exact_alpha exact_channel]. rewrite Nat.add_0_r. auto.
  - inversion G as [|? ? [F O] G']; subst. cbn [fst snd] in F, O.
    match goal with E : normal _ _ _ _ = Ok _ |- _ => rename E into E0 end.
    destruct (normal_step _ _ _ _ _ B F O E0) as [M St].
    cbn [length exact_alpha exact_channel]. rewrite Nat.add_succ_r, <- Nat.add_succ_l.
    eapply (IH mid r M G'); [eassumption| | | |].
    + intros m fr o' I. apply HJ. now right.
    + intros m fr o' I. apply HK. now right.
    + eapply Qle_trans; [exact (St _ _ Ja)|]. apply HJ. now left.
    + intros ch I. eapply Qle_trans; [exact (channel_step _ _ _ _ _ ch B F O E0 I _ _ (Kc ch I))|]. apply HK. now left.
Qed.

Lemma back_exact back : Qabs (inject_Z (pa back) - 255 * unit (pa back)) <= 0 /\
  forall ch : px -> Z, Qabs (inject_Z (ch back) * unit (pa back) - inject_Z (ch back) * unit (pa back)) <= 0.
Proof.
  split.
  - setoid_replace (inject_Z (pa back) - 255 * unit (pa back)) with 0; [apply Qle_refl|].
    unfold unit. rewrite (Qmake_Qdiv (pa back) 255). change (inject_Z 255) with 255. field.
  - intro ch. setoid_replace (inject_Z (ch back) * unit (pa back) - inject_Z (ch back) * unit (pa back)) with 0 by ring. apply Qle_refl.
Qed.

Lemma succ_q n : inject_Z (Z.of_nat (S n)) == inject_Z (Z.of_nat n) + 1.
Proof. rewrite Nat2Z.inj_succ. unfold Z.succ. rewrite inject_Z_plus. reflexivity. Qed.
Lemma count_q n : 0 <= inject_Z (Z.of_nat n).
Proof. unfold Qle. cbn. lia. Qed.

Lemma pile_linear c fs back r : is_px back -> good_fronts fs -> normals c fs back r ->
  pile_within (inject_Z (Z.of_nat (length fs))) (2 * inject_Z (Z.of_nat (length fs))) fs back r.
Proof.
  intros B G N.
  assert (R : forall front o, In (front, o) fs -> 0 <= strength front o <= 1).
  { intros front o I. unfold good_fronts in G. rewrite Forall_forall in G. destruct (G _ I) as [F O]. now apply strength_range. }
  assert (W : forall n s, 0 <= s <= 1 -> inject_Z (Z.of_nat n) * (1 - s) <= inject_Z (Z.of_nat n)).
  { intros n s S. rewrite <- (Qmult_1_r (inject_Z (Z.of_nat n))) at 2. rewrite !(Qmult_comm (inject_Z (Z.of_nat n))).
    apply Qmult_le_compat_r; [lra|apply count_q]. }
  destruct (back_exact back) as [E1 E2].
  refine (pile_bound c fs back r B G N (fun n => inject_Z (Z.of_nat n)) (fun n => 2 * inject_Z (Z.of_nat n)) _ _
    O (unit (pa back)) (fun ch => inject_Z (ch back) * unit (pa back)) _ _).
  - intros n front o I. rewrite succ_q. specialize (W n _ (R _ _ I)). lra.
  - intros n front o I. rewrite succ_q. specialize (W n _ (R _ _ I)). rewrite <- Qmult_assoc. lra.
  - exact E1.
  - intros ch _. eapply Qle_trans; [apply E2|]. vm_compute. discriminate.
Qed.

(** Fronts that contribute at least [t] *)
Lemma pile_strong c fs back r t : is_px back -> good_fronts fs -> normals c fs back r -> 0 < t ->
  (forall front o, In (front, o) fs -> t <= strength front o) ->
  pile_within (1 / t) (2 / t) fs back r.
Proof.
  intros B G N T L.
  assert (W : forall k s, 0 <= k -> t <= s -> k + k / t * (1 - s) <= k / t).
  { intros k s K S. assert (E : k == k / t * t) by (field; lra). assert (D : 0 <= k / t).
    { apply Qle_shift_div_l; [exact T|]. lra. }
    rewrite E at 1. setoid_replace (k / t * t + k / t * (1 - s)) with (k / t * (t + 1 - s)) by ring.
    rewrite <- (Qmult_1_r (k / t)) at 2. rewrite !(Qmult_comm (k / t)). apply Qmult_le_compat_r; [lra|exact D]. }
  assert (P : forall k, 0 <= k -> 0 <= k / t). { intros k K. apply Qle_shift_div_l; [exact T|]. lra. }
  destruct (back_exact back) as [E1 E2].
  refine (pile_bound c fs back r B G N (fun n => 1 / t) (fun n => 2 / t) _ _
    O (unit (pa back)) (fun ch => inject_Z (ch back) * unit (pa back)) _ _).
  - intros n front o I. apply W; [lra|]. exact (L _ _ I).
  - intros n front o I. apply W; [lra|]. exact (L _ _ I).
  - eapply Qle_trans; [exact E1|]. apply P. lra.
  - intros ch _. eapply Qle_trans; [apply E2|]. apply P. lra.
Qed.

(** ** Where the errors add up *)
Lemma stuck c n : normals c (repeat (faint_white, 255%Z) n) almost_black almost_black.
Proof.
  induction n as [|n IH]; [constructor|]. cbn [repeat]. eapply normals_cons; [|exact IH].
  destruct (normal_laws c almost_black faint_white 255) as (r & E & _); [unfold is_px, is_byte; cbn; lia..|unfold is_byte; lia|].
  rewrite E. f_equal. revert E. destruct c as [[|] ?]; vm_compute; congruence.
Qed.
Lemma whitened ch n : In ch [pr; pg; pb] -> forall p, p <= 255 ->
  255 - exact_channel ch (repeat (faint_white, 255%Z) n) p <= (255 - p) * (254 / (254 + inject_Z (Z.of_nat n))).
Proof.
  intro I. assert (C : ch faint_white = 255%Z) by (destruct I as [<-|[<-|[<-|[]]]]; reflexivity).
  assert (T : strength faint_white 255 == 1 # 255) by reflexivity.
  induction n as [|n IH]; intros p Hp; cbn [repeat exact_channel].
  - setoid_replace (254 / (254 + inject_Z (Z.of_nat 0))) with 1 by reflexivity. lra.
  - rewrite C. set (p' := inject_Z 255 * strength faint_white 255 + p * (1 - strength faint_white 255)).
    assert (E : 255 - p' == (255 - p) * (254 # 255)).
    { unfold p'. rewrite T. change (inject_Z 255) with 255. ring. }
    assert (L : p' <= 255) by lra.
    eapply Qle_trans; [exact (IH p' L)|]. rewrite E. rewrite <- Qmult_assoc.
    rewrite !(Qmult_comm (255 - p)). apply Qmult_le_compat_r; [|lra].
    rewrite succ_q. pose proof (count_q n) as N. set (m := inject_Z (Z.of_nat n)) in *.
    apply Qle_shift_div_l; [lra|].
    setoid_replace ((254 # 255) * (254 / (254 + m)) * (254 + (m + 1))) with (((254 # 255) * 254 * (255 + m)) / (254 + m)).
    2:{ field. lra. }
    apply Qle_shift_div_r; [lra|]. lra.
Qed.
Lemma faint_pile c n : normals c (repeat (faint_white, 255%Z) n) almost_black almost_black /\
  forall ch, In ch [pr; pg; pb] ->
    254 * inject_Z (Z.of_nat n) / (254 + inject_Z (Z.of_nat n)) <=
    exact_channel ch (repeat (faint_white, 255%Z) n) (inject_Z (ch almost_black) * unit (pa almost_black)) -
    inject_Z (ch almost_black) * unit (pa almost_black).
Proof.
  split; [apply stuck|]. intros ch I.
  assert (C : inject_Z (ch almost_black) * unit (pa almost_black) == 1) by (destruct I as [<-|[<-|[<-|[]]]]; reflexivity).
  pose proof (whitened ch n I (inject_Z (ch almost_black) * unit (pa almost_black)) ltac:(rewrite C; discriminate)) as W.
  set (e := exact_channel _ _ _) in *. rewrite C in *. pose proof (count_q n) as N. set (m := inject_Z (Z.of_nat n)) in *.
  setoid_replace (254 * m / (254 + m)) with (254 - (255 - 1) * (254 / (254 + m))) by (field; lra). lra.
Qed.

(** ** Frames *)
Lemma pile_unique inflate s sel x y cels fs : pile inflate s sel x y cels fs -> forall gs, pile inflate s sel x y cels gs -> fs = gs.
Proof.
  induction 1 as [|cel cels fs K H IH|cel cels l image front fs D V CI P H IH]; intros gs G; inversion G; subst; try reflexivity.
  - now apply IH.
  - destruct K; congruence.
  - match goal with K : _ \/ _ |- _ => destruct K; congruence end.
  - assert (image0 = image) as -> by (eapply cel_image_unique; eassumption).
    assert (front0 = front) as -> by congruence. assert (l0 = l) as -> by congruence. f_equal. now apply IH.
Qed.

Section Frames.
Context (c : cfg) (i : bytes) (s : ase_file).
Context (Hc : cfg_ok c) (Hi : is_bytes i) (Ha : addressable c i) (Hload : load c i = Ok s).
Context (inflate : inflater) (Hinf : inflate_ok inflate) (sel : layer_selection).

Lemma composed_pile x y cels : (forall cel l, In cel cels -> drawn s sel cel = Some l -> ly_blend_mode l = BNormal) ->
  forall back p, composed c inflate s sel x y cels back p ->
  exists fs, pile inflate s sel x y cels fs /\ normals c fs back p /\ good_fronts fs.
Proof.
  induction cels as [|cel cels IH]; intros M back p Hp; inversion Hp; subst.
  - exists []. repeat constructor.
  - destruct (IH (fun cel' l' I => M cel' l' (or_intror I)) back p ltac:(assumption)) as (fs & P1 & P2 & P3).
    exists fs. split; [now apply pile_skip|auto].
  - destruct (IH (fun cel' l' I => M cel' l' (or_intror I)) mid p ltac:(assumption)) as (fs & P1 & P2 & P3).
    exists ((front, ly_opacity l) :: fs). split; [eapply pile_draw; eassumption|].
    rewrite (M cel l (or_introl eq_refl) ltac:(assumption)) in *.
    match goal with E : blend_mode_to_blend_fn _ _ = Ok _ |- _ => injection E as <- end.
    split; [eapply normals_cons; eassumption|].
    constructor; [|exact P3]. cbn [fst snd]. split.
    + eapply pixel_px; [|eassumption]. eapply cel_image_bytes; eassumption.
    + eapply layer_opacity; [exact Hc|exact Hi|exact Ha|exact Hload|]. eapply drawn_layer; eassumption.
Qed.

Lemma frame_pile k sf target r : sprite_fits c s -> nth_error (api_frames s) k = Some sf -> is_bytes target ->
  (forall cel l, In cel (sf_cels sf) -> drawn s sel cel = Some l -> ly_blend_mode l = BNormal) ->
  render_frame c inflate s (Z.of_nat k) target sel = Ok r ->
  forall x y, (0 <= x < canvas_width s)%Z -> (0 <= y < canvas_height s)%Z ->
  exists back p fs, pixel (canvas_width s) target x y = Some back /\ pixel (canvas_width s) r x y = Some p /\
    pile inflate s sel x y (sf_cels sf) fs /\
    pile_within (inject_Z (Z.of_nat (length fs))) (2 * inject_Z (Z.of_nat (length fs))) fs back p /\
    forall t, 0 < t -> (forall front o, In (front, o) fs -> t <= strength front o) -> pile_within (1 / t) (2 / t) fs back p.
Proof.
  intros Hfit Hk Hb M Hr x y Hx Hy.
  destruct (render_composes c i s Hc Hi Ha Hload inflate Hinf Hfit sel k sf target r Hk Hb Hr x y Hx Hy) as (back & p & H1 & H2 & H3).
  destruct (composed_pile x y (sf_cels sf) M back p H3) as (fs & P1 & P2 & P3).
  assert (B : is_px back) by (eapply pixel_px; [exact Hb|exact H1]).
  exists back, p, fs. repeat (split; [assumption|]). split; [now apply (pile_linear c)|].
  intros t T L. now apply (pile_strong c).
Qed.
End Frames.
