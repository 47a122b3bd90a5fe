(** Order and symmetry of what is drawn. *)
From Verif.Model Require Import Loader.
From Verif.Spec Require Import Bytes ImageSpec BlendSpec RenderSpec Composite Laws.
From Verif.Proofs Require Import BlendFacts BlendProps ImageFacts ImageProps RenderFacts RenderProps CompositeProps IdealProps.

Definition normal_c (back front : px) (o : Z) (ch : px -> Z) : Z :=
  if pa back =? 0 then ch front
  else if pa front =? 0 then ch back
  else over_channel (ch back) (ch front) (div255 (pa front * o)) (over_alpha (pa back) (div255 (pa front * o))).
Lemma normal_px_c back front o ch : is_channel ch -> ch (normal_px back front o) = normal_c back front o ch.
Proof.
  intros [-> |[-> | ->]]; unfold normal_px, normal_c; destruct (_ =? 0); try reflexivity; destruct (_ =? 0); reflexivity.
Qed.
Lemma channel_in ch : is_channel ch -> In ch [pr; pg; pb].
Proof. intros [-> |[-> | ->]]; cbn; auto. Qed.

Lemma opaque_c back front p o ch : is_px back -> is_px front -> is_px p -> is_byte o -> pa p = pa front -> pa back = 255 ->
  is_channel ch -> ch (blend_px back front p o) = normal_c back p o ch.
Proof.
  intros Hb Hf Hp Ho Ea E Hch. rewrite blend_px_c by (try assumption; try lia; now apply channel_in).
  assert (B1 : is_byte (ch (normal_px back front o))) by (apply px_channel; [now apply normal_px_byte|now apply channel_in]).
  assert (B2 : is_byte (ch (normal_px back p o))) by (apply px_channel; [now apply normal_px_byte|now apply channel_in]).
  rewrite E. rewrite mix_255 by assumption. rewrite mix_same. now apply normal_px_c.
Qed.

Lemma quot_mono x y k d : x <= y -> 0 <= k -> 0 < d -> Z.quot (x * k) d <= Z.quot (y * k) d.
Proof. intros. apply Z.quot_le_mono; [lia|]. nia. Qed.

Lemma normal_c_mono back p q o ch : is_px back -> is_px p -> is_px q -> is_byte o -> pa p = pa q -> ch p <= ch q ->
  normal_c back p o ch <= normal_c back q o ch.
Proof.
  intros Hb Hp Hq Ho Ea H. unfold normal_c. rewrite <- Ea. destruct (Z.eqb_spec (pa back) 0) as [|Hz]; [exact H|].
  destruct (_ =? 0); [lia|]. unfold over_channel. pose proof (fa_byte p o Hp Ho) as F.
  pose proof (over_alpha_bounds (pa back) _ (proj2 (proj2 (proj2 Hb))) F) as O.
  assert (0 < pa back) by (destruct Hb as (_ & _ & _ & Hb); unfold is_byte in *; lia).
  pose proof (quot_mono (ch p - ch back) (ch q - ch back) (div255 (pa p * o)) (over_alpha (pa back) (div255 (pa p * o)))
    ltac:(lia) ltac:(unfold is_byte in F; lia) ltac:(lia)). lia.
Qed.
(** Drawing the back's own colour changes nothing. *)
Lemma normal_c_same back p o ch : ch p = ch back -> normal_c back p o ch = ch back.
Proof.
  intro E. unfold normal_c. destruct (_ =? 0); [exact E|]. destruct (_ =? 0); [reflexivity|].
  unfold over_channel. rewrite E, Z.sub_diag, Z.mul_0_l. cbn [Z.quot]. destruct (over_alpha _ _); cbn; lia.
Qed.

Definition with_channels (p q : px) : px := mkpx (pr q) (pg q) (pb q) (pa p).
Lemma normal_c_ge back p o ch : is_channel ch -> is_px back -> is_px p -> is_byte o -> ch back <= ch p -> ch back <= normal_c back p o ch.
Proof.
  intros Hch Hb Hp Ho H. rewrite <- (normal_c_same back (with_channels p back) o ch) at 1.
  - apply normal_c_mono; try assumption; try reflexivity.
    + destruct Hb as (? & ? & ? & ?), Hp as (? & ? & ? & ?). repeat split; cbn; unfold is_byte in *; lia.
    + destruct Hch as [-> |[-> | ->]]; exact H.
  - destruct Hch as [-> |[-> | ->]]; reflexivity.
Qed.
Lemma normal_c_le back p o ch : is_channel ch -> is_px back -> is_px p -> is_byte o -> ch p <= ch back -> normal_c back p o ch <= ch back.
Proof.
  intros Hch Hb Hp Ho H. rewrite <- (normal_c_same back (with_channels p back) o ch) at 1.
  - apply normal_c_mono; try assumption; try reflexivity.
    + destruct Hb as (? & ? & ? & ?), Hp as (? & ? & ? & ?). repeat split; cbn; unfold is_byte in *; lia.
    + destruct Hch as [-> |[-> | ->]]; exact H.
  - destruct Hch as [-> |[-> | ->]]; reflexivity.
Qed.

(** ** The formulas *)
Lemma darker_formula m b s q : darkens m -> is_byte b -> is_byte s -> formula m b s q -> q <= b.
Proof.
  unfold is_byte. intros Hm Hb Hs. destruct m; try contradiction; cbn [formula]; clear Hm.
  - unfold rounded. intros. assert (b * s <= 255 * b) by nia. lia.
  - lia.
  - destruct (Z.eqb_spec b 255); [lia|]. destruct (Z.leb_spec (b + s) 255); [lia|]. unfold rounded. intros [H1 H2].
    assert (2 * (255 - b) * s <= 2 * (255 * (255 - b))) by nia. assert (s * (2 * (255 - b)) < s * (2 * (255 - q) + 1)) by lia.
    assert (2 * (255 - b) < 2 * (255 - q) + 1) by nia. lia.
  - lia.
Qed.
Lemma lighter_formula m b s q : lightens m -> is_byte b -> is_byte s -> formula m b s q -> b <= q.
Proof.
  unfold is_byte. intros Hm Hb Hs. destruct m; try contradiction; cbn [formula]; clear Hm.
  - unfold rounded. intros. assert (0 <= s * (255 - b)) by nia. lia.
  - lia.
  - destruct (Z.eqb_spec b 0); [lia|]. destruct (Z.leb_spec 255 (b + s)); [lia|]. unfold rounded. intros [H1 H2].
    assert ((255 - s) * (2 * b) < (255 - s) * (2 * q + 1)) by nia. assert (2 * b < 2 * q + 1) by nia. lia.
  - lia.
  - destruct (Z.eqb_spec b 0); [lia|]. destruct (Z.leb_spec s b); [lia|]. unfold rounded. intros [H1 H2].
    assert (s * (2 * b) < s * (2 * q + 1)) by nia. assert (2 * b < 2 * q + 1) by nia. lia.
Qed.

Lemma mode_target c m back front o f r : separable m -> is_px back -> is_px front -> is_byte o ->
  blend_mode_to_blend_fn c m = Ok f -> f back front o = Ok r ->
  exists p, mode_colour m back front p /\ is_px p /\ pa p = pa front /\
    ((m = BNormal /\ p = front /\ r = normal_px back front o) \/ (m <> BNormal /\ r = blend_px back front p o)).
Proof.
  intros Hm Hb Hf Ho Ef Er. destruct (mode_eq m back front Hm Hb Hf) as (q & (Hq & Ea & F1 & F2 & F3) & Hc).
  assert (HC : mode_colour m back front q) by (repeat split; try assumption; destruct m; assumption).
  exists q. split; [exact HC|]. split; [exact Hq|]. split; [exact Ea|].
  destruct (Hc c) as (g & Eg & Hg). assert (g = f) as -> by congruence. rewrite (Hg o Ho) in Er. injection Er as <-.
  destruct m; try (right; split; [discriminate|reflexivity]). left. split; [reflexivity|]. split; [|reflexivity].
  cbn in HC. destruct HC as (H1 & H2 & H3 & H4). rewrite (px_eta q), (px_eta front). cbn in H1, H2, H3. congruence.
Qed.

Lemma channels_le p q : (forall ch, is_channel ch -> ch p <= ch q) -> no_lighter p q.
Proof. intro H. repeat split; apply H; unfold is_channel; auto. Qed.

Lemma darken_opaque m back front o : darkens m -> is_px back -> is_px front -> is_byte o -> pa back = 255 ->
  forall c f r, blend_mode_to_blend_fn c m = Ok f -> f back front o = Ok r -> no_lighter r back.
Proof.
  intros Hm Hb Hf Ho E c f r Ef Er. assert (Hs : separable m) by (destruct m; try contradiction; exact I).
  destruct (mode_target c m back front o f r Hs Hb Hf Ho Ef Er) as (p & (P1 & P2 & P3 & _) & Hp & Ea & [(-> & _)|(_ & ->)]); [contradiction|].
  apply channels_le. intros ch Hch. rewrite opaque_c by assumption. apply normal_c_le; try assumption.
  destruct Hb as (B1 & B2 & B3 & B4), Hf as (F1 & F2 & F3 & F4).
  assert (P4 : formula m (pb back) (pb front) (pb p)) by (destruct m; try contradiction; exact P3).
  destruct Hch as [-> |[-> | ->]]; [exact (darker_formula m _ _ _ Hm B1 F1 P1)|exact (darker_formula m _ _ _ Hm B2 F2 P2)|exact (darker_formula m _ _ _ Hm B3 F3 P4)].
Qed.
Lemma lighten_opaque m back front o : lightens m -> is_px back -> is_px front -> is_byte o -> pa back = 255 ->
  forall c f r, blend_mode_to_blend_fn c m = Ok f -> f back front o = Ok r -> no_lighter back r.
Proof.
  intros Hm Hb Hf Ho E c f r Ef Er. assert (Hs : separable m) by (destruct m; try contradiction; exact I).
  destruct (mode_target c m back front o f r Hs Hb Hf Ho Ef Er) as (p & (P1 & P2 & P3 & _) & Hp & Ea & [(-> & _)|(_ & ->)]); [contradiction|].
  apply channels_le. intros ch Hch. rewrite opaque_c by assumption. apply normal_c_ge; try assumption.
  destruct Hb as (B1 & B2 & B3 & B4), Hf as (F1 & F2 & F3 & F4).
  assert (P4 : formula m (pb back) (pb front) (pb p)) by (destruct m; try contradiction; exact P3).
  destruct Hch as [-> |[-> | ->]]; [exact (lighter_formula m _ _ _ Hm B1 F1 P1)|exact (lighter_formula m _ _ _ Hm B2 F2 P2)|exact (lighter_formula m _ _ _ Hm B3 F3 P4)].
Qed.

(** Over any back, compared with normal drawing *)
Lemma blend_c_side back front p o ch : is_px back -> is_px front -> is_px p -> is_byte o -> pa p = pa front -> is_channel ch ->
  between (ch (normal_px back front o)) (ch (normal_px back p o)) (ch (blend_px back front p o)).
Proof.
  intros Hb Hf Hp Ho Ea Hch. destruct (Z.eq_dec (pa back) 0) as [E|E].
  - unfold blend_px. rewrite E. cbn [Z.eqb]. unfold between. lia.
  - rewrite blend_px_c by (try assumption; now apply channel_in).
    assert (B1 : is_byte (ch (normal_px back front o))) by (apply px_channel; [now apply normal_px_byte|now apply channel_in]).
    assert (B2 : is_byte (ch (normal_px back p o))) by (apply px_channel; [now apply normal_px_byte|now apply channel_in]).
    pose proof (fa_byte front o Hf Ho) as F. destruct Hb as (_ & _ & _ & Hba).
    pose proof (mix_between _ _ _ B1 B2 Hba) as M1. pose proof (mix_byte _ _ _ B1 B2 Hba) as M2.
    pose proof (mix_between _ _ (div255 (pa back * div255 (pa front * o))) M2 B2 (div255_byte _ (prod_byte _ _ Hba F))) as M3.
    unfold between in *. lia.
Qed.
Lemma compare_normal m back front o : is_px back -> is_px front -> is_byte o -> 
  forall c f r n, blend_mode_to_blend_fn c m = Ok f -> f back front o = Ok r -> normal c back front o = Ok n ->
  (In m [BMultiply; BDarken] -> no_lighter r n) /\ (In m [BScreen; BLighten; BAddition] -> no_lighter n r).
Proof.
  intros Hb Hf Ho c f r n Ef Er En. rewrite normal_eq in En by assumption. injection En as <-.
  split; intro Hm.
  - assert (Hs : separable m) by (destruct Hm as [<-|[<-|[]]]; exact I).
    destruct (mode_target c m back front o f r Hs Hb Hf Ho Ef Er) as (p & (P1 & P2 & P3 & _) & Hp & Ea & [(-> & _)|(_ & ->)]); [destruct Hm as [|[|[]]]; discriminate|].
    apply channels_le. intros ch Hch. pose proof (blend_c_side back front p o ch Hb Hf Hp Ho Ea Hch) as S.
    rewrite (normal_px_c back p o ch Hch) in S.
    assert (L : normal_c back p o ch <= normal_c back front o ch).
    { apply normal_c_mono; try assumption. destruct Hb as (B1 & B2 & B3 & B4), Hf as (F1 & F2 & F3 & F4).
      assert (G : forall b s q, is_byte b -> is_byte s -> formula m b s q -> q <= s).
      { clear - Hm. unfold is_byte. intros b s q Hb Hs. destruct Hm as [<-|[<-|[]]]; cbn; [|lia]. unfold rounded. intros. assert (b * s <= 255 * s) by nia. lia. }
      assert (P4 : formula m (pb back) (pb front) (pb p)) by (destruct Hm as [<-|[<-|[]]]; exact P3).
      destruct Hch as [-> |[-> | ->]]; [exact (G _ _ _ B1 F1 P1)|exact (G _ _ _ B2 F2 P2)|exact (G _ _ _ B3 F3 P4)]. }
    rewrite <- (normal_px_c back front o ch Hch) in L. unfold between in S. lia.
  - assert (Hs : separable m) by (destruct Hm as [<-|[<-|[<-|[]]]]; exact I).
    destruct (mode_target c m back front o f r Hs Hb Hf Ho Ef Er) as (p & (P1 & P2 & P3 & _) & Hp & Ea & [(-> & _)|(_ & ->)]); [destruct Hm as [|[|[|[]]]]; discriminate|].
    apply channels_le. intros ch Hch. pose proof (blend_c_side back front p o ch Hb Hf Hp Ho Ea Hch) as S.
    rewrite (normal_px_c back p o ch Hch) in S.
    assert (L : normal_c back front o ch <= normal_c back p o ch).
    { apply normal_c_mono; try assumption; [now symmetry|]. destruct Hb as (B1 & B2 & B3 & B4), Hf as (F1 & F2 & F3 & F4).
      assert (G : forall b s q, is_byte b -> is_byte s -> formula m b s q -> s <= q).
      { clear - Hm. unfold is_byte. intros b s q Hb Hs. destruct Hm as [<-|[<-|[<-|[]]]]; cbn; try lia. unfold rounded. intros. assert (0 <= b * (255 - s)) by nia. lia. }
      assert (P4 : formula m (pb back) (pb front) (pb p)) by (destruct Hm as [<-|[<-|[<-|[]]]]; exact P3).
      destruct Hch as [-> |[-> | ->]]; [exact (G _ _ _ B1 F1 P1)|exact (G _ _ _ B2 F2 P2)|exact (G _ _ _ B3 F3 P4)]. }
    rewrite <- (normal_px_c back front o ch Hch) in L. unfold between in S. lia.
Qed.

(** ** More opacity *)
Lemma div255_mono a b : a <= b -> div255 a <= div255 b.
Proof. unfold div255. lia. Qed.
Lemma over_alpha_mono a s t : is_byte a -> is_byte s -> is_byte t -> s <= t -> over_alpha a s <= over_alpha a t.
Proof.
  unfold over_alpha, is_byte. intros Ha Hs Ht H.
  pose proof (div255_rounded (a * s) ltac:(nia)) as R1. pose proof (div255_rounded (a * t) ltac:(nia)) as R2. unfold rounded in *.
  assert (0 <= (255 - a) * (t - s)) by nia. lia.
Qed.
Lemma normal_px_a back front o : pa (normal_px back front o) = over_alpha (pa back) (div255 (pa front * o)).
Proof.
  unfold normal_px, over_alpha. destruct (Z.eqb_spec (pa back) 0) as [E|E].
  - cbn [pa mkpx]. rewrite E, Z.mul_0_l. change (div255 0) with 0. lia.
  - destruct (Z.eqb_spec (pa front) 0) as [E'|E']; [|reflexivity]. rewrite E', Z.mul_0_l.
    assert (Z0 : div255 0 = 0) by reflexivity. rewrite Z0, Z.mul_0_r, Z0. lia.
Qed.
Lemma normal_c_opaque back p o ch : is_px p -> is_byte o -> pa back = 255 ->
  normal_c back p o ch = ch back + Z.quot ((ch p - ch back) * div255 (pa p * o)) 255.
Proof.
  intros Hp Ho E. unfold normal_c. rewrite E. cbn [Z.eqb]. pose proof (fa_byte p o Hp Ho) as F.
  destruct (Z.eqb_spec (pa p) 0) as [E'|E'].
  - rewrite E', Z.mul_0_l. change (div255 0) with 0. rewrite Z.mul_0_r. cbn. lia.
  - unfold over_channel. replace (over_alpha 255 (div255 (pa p * o))) with 255; [reflexivity|].
    pose proof (over_alpha_bounds 255 _ ltac:(unfold is_byte; lia) F). lia.
Qed.
Lemma quot_between x s t : 0 <= s <= t -> between 0 (Z.quot (x * t) 255) (Z.quot (x * s) 255).
Proof.
  intro H. unfold between. destruct (Z.le_ge_cases 0 x) as [Hx|Hx].
  - assert (Z.quot 0 255 <= Z.quot (x * s) 255) by (apply Z.quot_le_mono; nia). cbn in H0.
    assert (Z.quot (x * s) 255 <= Z.quot (x * t) 255) by (apply Z.quot_le_mono; nia). lia.
  - assert (Z.quot (x * s) 255 <= Z.quot 0 255) by (apply Z.quot_le_mono; nia). cbn in H0.
    assert (Z.quot (x * t) 255 <= Z.quot (x * s) 255) by (apply Z.quot_le_mono; nia). lia.
Qed.

Lemma more_opacity m back front front' o o' : separable m -> is_px back -> is_px front -> is_px front' -> is_byte o -> is_byte o' ->
  pr front' = pr front -> pg front' = pg front -> pb front' = pb front -> pa front * o <= pa front' * o' ->
  forall c f r r', blend_mode_to_blend_fn c m = Ok f -> f back front o = Ok r -> f back front' o' = Ok r' ->
  pa r <= pa r' /\
  (pa back = 255 -> between (pr back) (pr r') (pr r) /\ between (pg back) (pg r') (pg r) /\ between (pb back) (pb r') (pb r)).
Proof.
  intros Hm Hb Hf Hf' Ho Ho' E1 E2 E3 Hle c f r r' Ef Er Er'.
  pose proof (fa_byte _ _ Hf Ho) as S. pose proof (fa_byte _ _ Hf' Ho') as S'. pose proof (div255_mono _ _ Hle) as Sle. split.
  - rewrite (same_alpha m back front o Hm Hb Hf Ho c f r _ Ef Er (normal_eq c back front o Hb Hf Ho)).
    rewrite (same_alpha m back front' o' Hm Hb Hf' Ho' c f r' _ Ef Er' (normal_eq c back front' o' Hb Hf' Ho')).
    rewrite !normal_px_a. apply over_alpha_mono; try assumption. apply Hb.
  - intro E.
    destruct (mode_target c m back front o f r Hm Hb Hf Ho Ef Er) as (p & (P1 & P2 & P3 & _) & Hp & Ea & D).
    destruct (mode_target c m back front' o' f r' Hm Hb Hf' Ho' Ef Er') as (p' & (P1' & P2' & P3' & _) & Hp' & Ea' & D').
    rewrite E1 in P1'. rewrite E2 in P2'. rewrite E3 in P3'.
    assert (K1 : pr p' = pr p) by (eapply formula_unique; [| |exact P1'|exact P1]; apply Hb || apply Hf).
    assert (K2 : pg p' = pg p) by (eapply formula_unique; [| |exact P2'|exact P2]; apply Hb || apply Hf).
    assert (K3 : pb p' = pb p) by (eapply formula_unique; [| |exact P3'|exact P3]; [apply Hb|destruct m; apply Hb || apply Hf]).
    assert (C : forall ch, is_channel ch -> ch r = normal_c back p o ch /\ ch r' = normal_c back p' o' ch /\ ch p' = ch p).
    { intros ch Hch. split; [|split].
      - destruct D as [(_ & -> & ->)|(_ & ->)]; [now apply normal_px_c|now apply opaque_c].
      - destruct D' as [(_ & -> & ->)|(_ & ->)]; [now apply normal_px_c|now apply opaque_c].
      - destruct Hch as [-> |[-> | ->]]; assumption. }
    assert (G : forall ch, is_channel ch -> between (ch back) (ch r') (ch r)).
    { intros ch Hch. destruct (C ch Hch) as (-> & -> & K). rewrite !normal_c_opaque by assumption. rewrite K, Ea, Ea'.
      pose proof (quot_between (ch p - ch back) (div255 (pa front * o)) (div255 (pa front' * o')) ltac:(unfold is_byte in S; lia)) as Q.
      unfold between in *. lia. }
    split; [|split]; apply G; unfold is_channel; auto.
Qed.

(** ** Channels *)
Lemma rearranged_px a b d p : is_channel a -> is_channel b -> is_channel d -> is_px p -> is_px (rearranged a b d p).
Proof.
  intros Ha Hb Hd (P1 & P2 & P3 & P4). unfold rearranged.
  split; [|split; [|split]]; cbn [pr pg pb pa mkpx]; [destruct Ha as [-> |[-> | ->]]|destruct Hb as [-> |[-> | ->]]|destruct Hd as [-> |[-> | ->]]|]; assumption.
Qed.
Lemma normal_rearranged a b d back front o : is_channel a -> is_channel b -> is_channel d ->
  normal_px (rearranged a b d back) (rearranged a b d front) o = rearranged a b d (normal_px back front o).
Proof.
  intros Ha Hb Hd. unfold normal_px. cbn [pa rearranged mkpx]. destruct (_ =? 0).
  - destruct Ha as [-> |[-> | ->]], Hb as [-> |[-> | ->]], Hd as [-> |[-> | ->]]; reflexivity.
  - destruct (_ =? 0); [reflexivity|].
    destruct Ha as [-> |[-> | ->]], Hb as [-> |[-> | ->]], Hd as [-> |[-> | ->]]; reflexivity.
Qed.
Lemma merge_rearranged a b d back front o : is_channel a -> is_channel b -> is_channel d ->
  merge_px (rearranged a b d back) (rearranged a b d front) o = rearranged a b d (merge_px back front o).
Proof.
  intros Ha Hb Hd. unfold merge_px. cbn [pa rearranged mkpx]. destruct (_ =? 0).
  - destruct Ha as [-> |[-> | ->]], Hb as [-> |[-> | ->]], Hd as [-> |[-> | ->]]; reflexivity.
  - destruct (_ =? 0); [destruct Ha as [-> |[-> | ->]], Hb as [-> |[-> | ->]], Hd as [-> |[-> | ->]]; reflexivity|].
    destruct (_ =? 0); destruct Ha as [-> |[-> | ->]], Hb as [-> |[-> | ->]], Hd as [-> |[-> | ->]]; reflexivity.
Qed.
Lemma blend_rearranged a b d back front p o : is_channel a -> is_channel b -> is_channel d ->
  blend_px (rearranged a b d back) (rearranged a b d front) (rearranged a b d p) o = rearranged a b d (blend_px back front p o).
Proof.
  intros Ha Hb Hd. unfold blend_px. change (pa (rearranged a b d back)) with (pa back). change (pa (rearranged a b d front)) with (pa front).
  rewrite !normal_rearranged by assumption. destruct (_ =? 0); [reflexivity|]. now rewrite !merge_rearranged by assumption.
Qed.

Lemma channels_alike m back front o a b d : separable m -> m <> BSoftLight -> is_px back -> is_px front -> is_byte o ->
  is_channel a -> is_channel b -> is_channel d ->
  forall c f r, blend_mode_to_blend_fn c m = Ok f -> f back front o = Ok r ->
  f (rearranged a b d back) (rearranged a b d front) o = Ok (rearranged a b d r).
Proof.
  intros Hm Hn Hb Hf Ho Ca Cb Cd c f r Ef Er.
  pose proof (rearranged_px a b d back Ca Cb Cd Hb) as Hb'. pose proof (rearranged_px a b d front Ca Cb Cd Hf) as Hf'.
  destruct (composite_iff m (rearranged a b d back) (rearranged a b d front) o Hm Hb' Hf' Ho) as (r' & _ & _ & Hc).
  destruct (Hc c) as (g & Eg & Er'). assert (g = f) as -> by congruence. rewrite Er'. f_equal.
  destruct (mode_target c m back front o f r Hm Hb Hf Ho Ef Er) as (p & (P1 & P2 & P3 & _) & Hp & Ea & D).
  destruct (mode_target c m _ _ o f r' Hm Hb' Hf' Ho Ef Er') as (p' & (P1' & P2' & P3' & _) & Hp' & Ea' & D').
  assert (P4 : formula m (pb back) (pb front) (pb p)) by (destruct m; congruence || exact P3).
  assert (P4' : formula m (d back) (d front) (pb p')) by (destruct m; congruence || exact P3').
  assert (F : forall ch, is_channel ch -> formula m (ch back) (ch front) (ch p)) by (intros ch [-> |[-> | ->]]; assumption).
  assert (B : forall ch x, is_channel ch -> is_px x -> is_byte (ch x)) by (intros ch x Hch Hx; apply px_channel; [exact Hx|now apply channel_in]).
  assert (p' = rearranged a b d p) as ->.
  { rewrite (px_eta p'). unfold rearranged.
    rewrite (formula_unique m (a back) (a front) (pr p') (a p)) by auto.
    rewrite (formula_unique m (b back) (b front) (pg p') (b p)) by auto.
    rewrite (formula_unique m (d back) (d front) (pb p') (d p)) by auto. rewrite Ea'. change (pa (rearranged a b d front)) with (pa front). now rewrite <- Ea. }
  destruct D as [(-> & _ & ->)|(N & ->)], D' as [(N' & _ & ->)|(N' & ->)]; try contradiction; try congruence.
  - now apply normal_rearranged.
  - now apply blend_rearranged.
Qed.

(** ** Exchange *)
Definition spans (o z : Z * Z) (x y : Z) : bool :=
  (fst o <=? x) && (x <? fst o + fst z) && (snd o <=? y) && (y <? snd o + snd z).
(** Drawing a list of pictures over one pixel *)
Inductive laid (c : cfg) (inflate : inflater) (f : file) (x y : Z) : list picture_at -> px -> px -> Prop :=
| laid_nil back : laid c inflate f x y [] back back
| laid_skip o z i m op l back p : spans o z x y = false -> laid c inflate f x y l back p ->
    laid c inflate f x y ((o, z, i, m, op) :: l) back p
| laid_draw o z im m op l back image front g mid p : spans o z x y = true ->
    decoded inflate f im (repeat 0 (Z.to_nat (rgba_size im))) image ->
    pixel (fst z) image (x - fst o) (y - snd o) = Some front ->
    blend_mode_to_blend_fn c m = Ok g -> g back front op = Ok mid -> laid c inflate f x y l mid p ->
    laid c inflate f x y ((o, z, Some im, m, op) :: l) back p.

Lemma covers_spans cel x y : covers cel x y = spans (fc_origin cel) (fc_size cel) x y.
Proof. unfold covers, spans. destruct (fc_origin cel), (fc_size cel). reflexivity. Qed.

Lemma composed_laid c inflate s sel x y cels : forall back p, composed c inflate s sel x y cels back p ->
  laid c inflate (af_file s) x y (shown s sel cels) back p.
Proof.
  intros back p H. induction H as [back|cel cels back p Hs H IH|cel cels back l image front f mid p Hdr Hcov Him Hpx Hf Hm H IH].
  - constructor.
  - cbn [shown flat_map]. destruct (drawn s sel cel) as [l|] eqn:E; [|exact IH]. destruct Hs as [Hs|Hs]; [discriminate|].
    cbn [app]. apply laid_skip; [now rewrite <- covers_spans|exact IH].
  - cbn [shown flat_map]. rewrite Hdr. cbn [app]. destruct Him as (im & -> & Him).
    apply (laid_draw c inflate (af_file s) x y _ _ im _ _ _ back image front f mid p); try assumption. now rewrite <- covers_spans.
Qed.

Lemma laid_unique c inflate f x y l : forall back p q, laid c inflate f x y l back p -> laid c inflate f x y l back q -> p = q.
Proof.
  induction l as [|e l IH]; intros back p q Hp Hq; inversion Hp; subst; inversion Hq; subst; try reflexivity; try congruence.
  - eapply IH; eassumption.
  - match goal with A : decoded _ _ ?im _ ?a, B : decoded _ _ ?im _ ?b |- _ =>
      assert (a = b) as -> by (eapply decoded_unique; [exact A|exact B]) end.
    assert (front0 = front) as -> by congruence. assert (g0 = g) as -> by congruence. assert (mid0 = mid) as -> by congruence.
    eapply IH; eassumption.
Qed.
Lemma laid_app c inflate f x y a b : forall back q, laid c inflate f x y (a ++ b) back q ->
  exists mid, laid c inflate f x y a back mid /\ laid c inflate f x y b mid q.
Proof.
  induction a as [|e a IH]; intros back q H; [exists back; split; [constructor|exact H]|]. cbn [app] in H.
  inversion H; subst; (match goal with K : laid _ _ _ _ _ (a ++ b) _ _ |- _ => destruct (IH _ _ K) as (m' & A & B) end; exists m'; split; [|exact B]).
  - now apply laid_skip.
  - eapply laid_draw; eassumption.
Qed.
Lemma laid_join c inflate f x y a b : forall back mid q, laid c inflate f x y a back mid -> laid c inflate f x y b mid q ->
  laid c inflate f x y (a ++ b) back q.
Proof.
  intros back mid q H. induction H; intro K; cbn [app]; [exact K|apply laid_skip; auto|eapply laid_draw; eauto].
Qed.

Lemma apart_spans a b x y : apart a b ->
  spans (fst (fst (fst (fst a)))) (snd (fst (fst (fst a)))) x y = false \/ spans (fst (fst (fst (fst b)))) (snd (fst (fst (fst b)))) x y = false.
Proof.
  destruct a as [[[[ao az] ai] am] aop], b as [[[[bo bz] bi] bm] bop]. cbn [fst snd apart]. unfold spans. intro H.
  destruct (_ && _) eqn:E; [right|now left]. apply not_true_is_false. intro E'.
  rewrite !andb_true_iff, !Z.leb_le, !Z.ltb_lt in *. lia.
Qed.
Lemma laid_swap c inflate f x y a b l back q : apart a b -> laid c inflate f x y (a :: b :: l) back q ->
  laid c inflate f x y (b :: a :: l) back q.
Proof.
  intros Hab H. pose proof (apart_spans a b x y Hab) as D.
  inversion H as [|o z i m op l' back' p' S1 L1|o z im m op l' back' image front g mid p' S1 I1 P1 F1 M1 L1]; subst; cbn [fst snd] in D;
  inversion L1 as [|o' z' i' m' op' l'' back'' p'' S2 L2|o' z' im' m' op' l'' back'' image' front' g' mid' p'' S2 I2 P2 F2 M2 L2]; subst; cbn [fst snd] in D.
  - apply laid_skip; [exact S2|]. now apply laid_skip.
  - eapply laid_draw; try eassumption. now apply laid_skip.
  - apply laid_skip; [exact S2|]. eapply laid_draw; eassumption.
  - destruct D; congruence.
Qed.
Lemma laid_exchanged c inflate f x y l l' : exchanged l l' -> forall back q, laid c inflate f x y l back q -> laid c inflate f x y l' back q.
Proof.
  induction 1 as [|a u v b H IH Huv]; [auto|]. intros back q K. apply IH in K. apply laid_app in K as (mid & K1 & K2).
  eapply laid_join; [exact K1|]. now apply laid_swap.
Qed.
Lemma laid_file c inflate f f' x y l back q : h_color_depth (f_header f) = h_color_depth (f_header f') -> f_palette f = f_palette f' ->
  laid c inflate f x y l back q -> laid c inflate f' x y l back q.
Proof.
  intros Hd Hp H. induction H; [constructor|now apply laid_skip|]. eapply laid_draw; try eassumption. unfold decoded in *. now rewrite <- Hd, <- Hp.
Qed.

(** Buffers with the same pixels *)
Lemma same_pixels w h (t r r' : bytes) : 0 <= w -> 0 <= h -> w * h * 4 <= zlen t ->
  zlen r = zlen t -> zlen r' = zlen t ->
  skipn (Z.to_nat (w * h * 4)) r = skipn (Z.to_nat (w * h * 4)) t -> skipn (Z.to_nat (w * h * 4)) r' = skipn (Z.to_nat (w * h * 4)) t ->
  (forall x y, 0 <= x < w -> 0 <= y < h -> pixel w r x y = pixel w r' x y) -> r = r'.
Proof.
  intros Hw Hh Hle Hr Hr' S S' H. rewrite <- (firstn_skipn (Z.to_nat (w * h * 4)) r), <- (firstn_skipn (Z.to_nat (w * h * 4)) r'), S, S'. f_equal.
  assert (L : forall u : bytes, zlen u = zlen t -> zlen (firstn (Z.to_nat (w * h * 4)) u) = w * h * 4).
  { intros u Hu. unfold zlen in *. rewrite firstn_length. lia. }
  apply (quads_eq (Z.to_nat (w * h))); [rewrite L by exact Hr; nia|rewrite L by exact Hr'; nia|].
  intros k Hk.
  assert (Q : forall u : bytes, zlen u = zlen t -> quad (firstn (Z.to_nat (w * h * 4)) u) k = quad u k).
  { intros u Hu. rewrite <- (firstn_skipn (Z.to_nat (w * h * 4)) u) at 2. symmetry. apply quad_app.
    specialize (L u Hu). unfold zlen in L. lia. }
  rewrite !Q by assumption. assert (0 < w) by nia.
  specialize (H (Z.of_nat k mod w) (Z.of_nat k / w)).
  assert (E : Z.of_nat k / w * w + Z.of_nat k mod w = Z.of_nat k) by (rewrite Z.mul_comm; symmetry; apply Z.div_mod; lia).
  unfold pixel in H. rewrite E, Nat2Z.id in H.
  assert (M : 0 <= Z.of_nat k mod w < w) by (apply Z.mod_pos_bound; lia).
  assert (D : 0 <= Z.of_nat k / w < h) by (split; [apply Z.div_pos; lia|apply Z.div_lt_upper_bound; lia]).
  specialize (H M D). destruct (quad r k) as [[[[? ?] ?] ?]|], (quad r' k) as [[[[? ?] ?] ?]|]; unfold mkpx in H; congruence.
Qed.

Lemma exchanged_render c i s i' s' : cfg_ok c -> is_bytes i -> addressable c i -> load c i = Ok s ->
  is_bytes i' -> addressable c i' -> load c i' = Ok s' ->
  same_canvas s s' -> f_palette (af_file s) = f_palette (af_file s') ->
  forall inflate, inflate_ok inflate -> sprite_fits c s -> sprite_fits c s' ->
  forall sel sel' k sf k' sf', nth_error (api_frames s) k = Some sf -> nth_error (api_frames s') k' = Some sf' ->
  exchanged (shown s sel (sf_cels sf)) (shown s' sel' (sf_cels sf')) ->
  forall target r r', is_bytes target ->
  render_frame c inflate s (Z.of_nat k) target sel = Ok r ->
  render_frame c inflate s' (Z.of_nat k') target sel' = Ok r' -> r = r'.
Proof.
  intros Hc Hi Ha Hl Hi' Ha' Hl' (Cw & Ch & Cd) Hp inflate Hinf Hfit Hfit' sel sel' k sf k' sf' Hk Hk' HX t r r' Ht Hr Hr'.
  assert (Hle : canvas_size s <= zlen t).
  { destruct (Z.ltb_spec (zlen t) (canvas_size s)) as [H|H]; [|exact H].
    rewrite (render_too_small c i s Hc Hi Ha Hl Hfit inflate sel (Z.of_nat k) t H) in Hr. discriminate. }
  assert (ES : canvas_size s' = canvas_size s) by (unfold canvas_size; now rewrite Cw, Ch).
  pose proof (render_buffer c i s Hc Hi Ha Hl inflate Hinf Hfit sel k sf t Hk Ht Hle) as B. rewrite Hr in B. destruct B as (B1 & _ & B2).
  pose proof (render_buffer c i' s' Hc Hi' Ha' Hl' inflate Hinf Hfit' sel' k' sf' t Hk' Ht ltac:(lia)) as B. rewrite Hr' in B. destruct B as (B1' & _ & B2').
  rewrite ES in B2'. destruct (canvas_facts c i s Hc Hi Ha Hl) as [[W0 _] [H0 _]].
  apply (same_pixels (canvas_width s) (canvas_height s) t); try assumption.
  intros x y Hx Hy.
  destruct (render_composes c i s Hc Hi Ha Hl inflate Hinf Hfit sel k sf t r Hk Ht Hr x y Hx Hy) as (b & p & P1 & P2 & C).
  destruct (render_composes c i' s' Hc Hi' Ha' Hl' inflate Hinf Hfit' sel' k' sf' t r' Hk' Ht Hr' x y ltac:(lia) ltac:(lia)) as (b' & p' & P1' & P2' & C').
  rewrite <- Cw in *. rewrite P2, P2'. assert (b' = b) as -> by congruence. f_equal.
  apply composed_laid in C, C'. apply (laid_exchanged _ _ _ _ _ _ _ HX) in C. apply (laid_file _ _ (af_file s) (af_file s')) in C; [|assumption|assumption].
  eapply laid_unique; eassumption.
Qed.
