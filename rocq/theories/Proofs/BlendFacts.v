(** The arithmetic of the blend functions on bytes. *)
From Verif.Model Require Import Blend.
From Verif.Spec Require Import Bytes BlendSpec.
From Verif.Proofs Require Import SoftLight.
From Coq Require Import ZifyBool.

Local Ltac Zify.zify_post_hook ::= Z.div_mod_to_equations.

Lemma i32c_id {E} c z : - 2 ^ 31 <= z < 2 ^ 31 -> @i32c E c z = Ok z.
Proof. intro H. unfold i32c, checked. replace ((- 2 ^ 31 <=? z) && (z <? - 2 ^ 31 + 2 ^ 32)) with true by lia. reflexivity. Qed.
Lemma as_u8_id z : is_byte z -> as_u8 z = z.
Proof. unfold is_byte, as_u8. intro H. now apply Z.mod_small. Qed.
Lemma as_u8_byte z : is_byte (as_u8 z).
Proof. unfold is_byte, as_u8. apply Z.mod_pos_bound. lia. Qed.
Lemma shiftr8 t : Z.shiftr t 8 = t / 256.
Proof. now rewrite Z.shiftr_div_pow2. Qed.

(** [n / 255], rounded, as the code computes it. *)
Definition div255 (n : Z) : Z := ((n + 128) / 256 + (n + 128)) / 256.

Lemma div255_rounded n : 0 <= n <= 65025 -> rounded n 255 (div255 n).
Proof. unfold rounded, div255. lia. Qed.
Lemma div255_error n : - 65025 <= n <= 65025 -> - 255 <= 2 * (255 * div255 n - n) <= 256.
Proof. unfold div255. lia. Qed.
Lemma rounded_unique n d p q : 0 < d -> rounded n d p -> rounded n d q -> p = q.
Proof. unfold rounded. nia. Qed.

Lemma prod_byte a b : is_byte a -> is_byte b -> 0 <= a * b <= 65025.
Proof. unfold is_byte. nia. Qed.
Lemma prod_range a b x : - 255 <= a <= 255 -> 0 <= b <= x -> x <= 255 -> - 65025 <= a * b <= 65025.
Proof. nia. Qed.

Lemma div255_byte n : 0 <= n <= 65025 -> is_byte (div255 n).
Proof. unfold is_byte, div255. lia. Qed.

Lemma mul8_eq c a b : is_byte a -> is_byte b -> mul8 c a b = Ok (div255 (a * b)).
Proof.
  intros Ha Hb. pose proof (prod_byte _ _ Ha Hb) as Hp. unfold mul8.
  rewrite i32c_id by lia. cbn [bind]. rewrite i32c_id by lia. cbn [bind].
  rewrite !shiftr8, i32c_id by lia. cbn [bind]. rewrite shiftr8. f_equal. apply as_u8_id.
  exact (div255_byte _ Hp).
Qed.

Lemma blend8_eq c b s o : is_byte b -> is_byte s -> is_byte o ->
  blend8 c b s o = Ok (b + div255 ((s - b) * o)) /\ between b s (b + div255 ((s - b) * o)).
Proof.
  unfold is_byte. intros Hb Hs Ho.
  assert (Hr : - 65025 <= (s - b) * o <= 65025) by nia.
  assert (Hbt : between b s (b + div255 ((s - b) * o))).
  { unfold between. assert (Hz : s <= b -> 255 * (s - b) <= (s - b) * o <= 0) by nia.
    assert (Hz2 : b <= s -> 0 <= (s - b) * o <= 255 * (s - b)) by nia.
    pose proof (div255_error _ Hr). unfold div255 in *. lia. }
  split; [|exact Hbt]. unfold blend8.
  rewrite i32c_id by lia. cbn [bind]. rewrite i32c_id by lia. cbn [bind]. rewrite i32c_id by lia. cbn [bind].
  rewrite !shiftr8, i32c_id by lia. cbn [bind]. rewrite shiftr8. fold (div255 ((s - b) * o)).
  unfold between in Hbt. rewrite i32c_id by lia. cbn [bind]. f_equal. apply as_u8_id. unfold is_byte. lia.
Qed.

(** [b / 2], [x / y] on non-negative numbers. *)
Lemma i32_div_eq c x y : 0 <= x < 2 ^ 31 -> 0 < y -> i32_div c x y = Ok (x / y).
Proof.
  intros Hx Hy. unfold i32_div. destruct (Z.eqb_spec y 0) as [E|_]; [lia|].
  rewrite Z.quot_div_nonneg by lia. apply i32c_id. pose proof (Z.div_pos x y ltac:(lia) Hy).
  assert (x / y <= x) by (apply Z.div_le_upper_bound; nia). lia.
Qed.
Lemma div8_eq c a b : 0 <= a < b -> is_byte b ->
  exists q, div8 c a b = Ok q /\ is_byte q /\ rounded (255 * a) b q.
Proof.
  unfold is_byte. intros Ha Hb. unfold div8. rewrite i32c_id by lia. cbn [bind].
  rewrite i32_div_eq by lia. cbn [bind]. rewrite i32c_id by lia. cbn [bind]. rewrite i32_div_eq by lia. cbn [bind].
  eexists. split; [reflexivity|].
  assert (H : 0 <= (a * 255 + b / 2) / b < 256).
  { split; [apply Z.div_pos; lia|]. apply Z.div_lt_upper_bound; [lia|]. nia. }
  rewrite as_u8_id by exact H. split; [exact H|]. unfold rounded.
  set (q := (a * 255 + b / 2) / b). pose proof (Z.mul_div_le (a * 255 + b / 2) b ltac:(lia)).
  pose proof (Z.mul_succ_div_gt (a * 255 + b / 2) b ltac:(lia)). fold q in H0, H1.
  assert (b * (2 * q - 1) = 2 * (b * q) - b) by ring. assert (b * (2 * q + 1) = 2 * (b * Z.succ q) - b) by (unfold Z.succ; ring).
  assert (E : b * Z.succ q = b * q + b) by (unfold Z.succ; ring). rewrite E in *.
  set (m := b * q) in *. lia.
Qed.

(** ** Normal blending *)
Definition over_alpha (ba fa : Z) : Z := fa + ba - div255 (ba * fa).
Definition over_channel (bk ft fa ra : Z) : Z := bk + Z.quot ((ft - bk) * fa) ra.

Lemma over_alpha_bounds ba fa : is_byte ba -> is_byte fa ->
  Z.max ba fa <= over_alpha ba fa <= 255.
Proof.
  unfold is_byte, over_alpha. intros Ha Hf. assert (0 <= ba * fa <= 255 * ba) by nia. assert (ba * fa <= 255 * fa) by nia.
  assert (0 <= (255 - ba) * (255 - fa)) by nia. pose proof (div255_rounded (ba * fa) ltac:(nia)) as Hr. unfold rounded in Hr.
  lia.
Qed.

Lemma over_channel_between bk ft fa ra : 0 <= fa <= ra -> 0 < ra -> between bk ft (over_channel bk ft fa ra).
Proof.
  unfold over_channel, between. intros Hf Hr. destruct (Z.le_gt_cases bk ft) as [H|H].
  - assert (0 <= Z.quot ((ft - bk) * fa) ra <= ft - bk); [|lia].
    rewrite Z.quot_div_nonneg by nia. split; [apply Z.div_pos; nia|apply Z.div_le_upper_bound; nia].
  - assert (0 <= Z.quot ((bk - ft) * fa) ra <= bk - ft).
    { rewrite Z.quot_div_nonneg by nia. split; [apply Z.div_pos; nia|apply Z.div_le_upper_bound; nia]. }
    replace ((ft - bk) * fa) with (- ((bk - ft) * fa)) by ring. rewrite Z.quot_opp_l by lia. lia.
Qed.

Lemma between_byte x y q : is_byte x -> is_byte y -> between x y q -> is_byte q.
Proof. unfold is_byte, between. lia. Qed.

Lemma normal_channel_eq c bk ft fa ra : is_byte bk -> is_byte ft -> is_byte fa -> fa <= ra <= 255 -> 0 < ra ->
  normal_channel c bk ft fa ra = Ok (over_channel bk ft fa ra).
Proof.
  intros Hb Hf Ha Hr H0. unfold normal_channel. unfold is_byte in *. rewrite i32c_id by lia. cbn [bind].
  assert (- 65025 <= (ft - bk) * fa <= 65025) by nia. rewrite i32c_id by lia. cbn [bind].
  pose proof (over_channel_between bk ft fa ra ltac:(lia) H0) as B. unfold between, over_channel in B. unfold over_channel.
  unfold i32_div. destruct (Z.eqb_spec ra 0) as [E|_]; [lia|]. rewrite i32c_id by lia. cbn [bind]. apply i32c_id. lia.
Qed.

(** Normal blending as a total function. *)
Definition normal_px (back front : px) (o : Z) : px :=
  if pa back =? 0 then mkpx (pr front) (pg front) (pb front) (div255 (pa front * o))
  else if pa front =? 0 then back
  else
    let fa := div255 (pa front * o) in
    let ra := over_alpha (pa back) fa in
    mkpx (over_channel (pr back) (pr front) fa ra) (over_channel (pg back) (pg front) fa ra)
         (over_channel (pb back) (pb front) fa ra) ra.

Lemma px_from_i32_eq c a b d e : is_byte a -> is_byte b -> is_byte d -> is_byte e -> px_from_i32 c a b d e = Ok (mkpx a b d e).
Proof.
  intros Ha Hb Hd He. unfold px_from_i32. rewrite !as_u8_id by assumption. unfold is_byte in *.
  replace ((0 <=? a) && (a <=? 255) && ((0 <=? b) && (b <=? 255)) && ((0 <=? d) && (d <=? 255)) && ((0 <=? e) && (e <=? 255)))
    with true by lia. now rewrite andb_false_r.
Qed.

Lemma fa_byte front o : is_px front -> is_byte o -> is_byte (div255 (pa front * o)).
Proof. intros (_ & _ & _ & H) Ho. apply div255_byte, prod_byte; assumption. Qed.

Lemma normal_px_byte back front o : is_px back -> is_px front -> is_byte o -> is_px (normal_px back front o).
Proof.
  intros Hb Hf Ho. pose proof (fa_byte _ _ Hf Ho) as Hfa. unfold normal_px.
  destruct (Z.eqb_spec (pa back) 0) as [E|E]; [destruct Hf as (? & ? & ? & ?); repeat split; cbn; try apply Hfa; unfold is_byte in *; lia|].
  destruct (Z.eqb_spec (pa front) 0) as [E'|E']; [exact Hb|]. cbv zeta.
  set (fa := div255 (pa front * o)) in *. destruct Hb as (Hb1 & Hb2 & Hb3 & Hb4). destruct Hf as (Hf1 & Hf2 & Hf3 & Hf4).
  pose proof (over_alpha_bounds _ _ Hb4 Hfa) as Ha. set (ra := over_alpha (pa back) fa) in *.
  assert (Hra : 0 < ra) by (unfold is_byte in *; lia). assert (H1 : 0 <= fa <= ra) by (unfold is_byte in *; lia).
  repeat apply conj; cbn [pr pg pb pa mkpx];
    try (eapply between_byte; [| |apply over_channel_between; assumption]; assumption); unfold is_byte in *; lia.
Qed.

Lemma normal_eq c back front o : is_px back -> is_px front -> is_byte o -> normal c back front o = Ok (normal_px back front o).
Proof.
  intros Hb Hf Ho. pose proof (fa_byte _ _ Hf Ho) as Hfa. pose proof (normal_px_byte _ _ _ Hb Hf Ho) as HN.
  unfold normal, normal_px in *.
  destruct Hb as (Hb1 & Hb2 & Hb3 & Hb4). destruct Hf as (Hf1 & Hf2 & Hf3 & Hf4).
  rewrite mul8_eq by assumption. cbn [bind].
  destruct (Z.eqb_spec (pa back) 0) as [E|E]; [reflexivity|].
  destruct (Z.eqb_spec (pa front) 0) as [E'|E']; [reflexivity|].
  cbv zeta in HN. set (fa := div255 (pa front * o)) in *.
  pose proof (over_alpha_bounds _ _ Hb4 Hfa) as Ha. unfold over_alpha in Ha.
  assert (Hd : is_byte (div255 (pa back * fa))) by (apply div255_byte, prod_byte; assumption).
  rewrite i32c_id by (unfold is_byte in *; lia). cbn [bind]. rewrite mul8_eq by assumption. cbn [bind].
  rewrite i32c_id by (unfold is_byte in *; lia). cbn [bind]. fold (over_alpha (pa back) fa) in *. set (ra := over_alpha (pa back) fa) in *.
  assert (Hra : 0 < ra) by (unfold is_byte in *; lia). assert (H1 : fa <= ra <= 255) by (unfold is_byte in *; lia).
  rewrite !normal_channel_eq by assumption. cbn [bind]. apply px_from_i32_eq; apply HN.
Qed.

(** ** Merging *)
Definition mix (b s o : Z) : Z := b + div255 ((s - b) * o).
Definition merge_px (back front : px) (o : Z) : px :=
  let ra := mix (pa back) (pa front) o in
  if ra =? 0 then mkpx 0 0 0 0
  else if pa back =? 0 then mkpx (pr front) (pg front) (pb front) ra
  else if pa front =? 0 then mkpx (pr back) (pg back) (pb back) ra
  else mkpx (mix (pr back) (pr front) o) (mix (pg back) (pg front) o) (mix (pb back) (pb front) o) ra.

Lemma mix_between b s o : is_byte b -> is_byte s -> is_byte o -> between b s (mix b s o).
Proof. intros Hb Hs Ho. now apply (blend8_eq {| debug := true; usize_bits := 64 |}). Qed.
Lemma mix_byte b s o : is_byte b -> is_byte s -> is_byte o -> is_byte (mix b s o).
Proof. intros Hb Hs Ho. eapply between_byte; [| |apply mix_between]; eassumption. Qed.
Lemma mix_same b o : mix b b o = b.
Proof. unfold mix. rewrite Z.sub_diag, Z.mul_0_l. unfold div255. lia. Qed.
Lemma mix_0 b s : mix b s 0 = b.
Proof. unfold mix. rewrite Z.mul_0_r. unfold div255. lia. Qed.
Lemma mix_255 b s : is_byte b -> is_byte s -> mix b s 255 = s.
Proof. unfold mix, div255, is_byte. lia. Qed.

Lemma merge_eq c back front o : is_px back -> is_px front -> is_byte o -> merge c back front o = Ok (merge_px back front o).
Proof.
  intros (Hb1 & Hb2 & Hb3 & Hb4) (Hf1 & Hf2 & Hf3 & Hf4) Ho. unfold merge, merge_px.
  rewrite (proj1 (blend8_eq c _ _ o Hb1 Hf1 Ho)), (proj1 (blend8_eq c _ _ o Hb2 Hf2 Ho)),
    (proj1 (blend8_eq c _ _ o Hb3 Hf3 Ho)), (proj1 (blend8_eq c _ _ o Hb4 Hf4 Ho)). cbn [bind]. fold (mix (pa back) (pa front) o).
  destruct (pa back =? 0), (pa front =? 0); cbn [bind]; destruct (mix (pa back) (pa front) o =? 0); reflexivity.
Qed.
Lemma merge_px_byte back front o : is_px back -> is_px front -> is_byte o -> is_px (merge_px back front o).
Proof.
  intros (Hb1 & Hb2 & Hb3 & Hb4) (Hf1 & Hf2 & Hf3 & Hf4) Ho. unfold merge_px.
  pose proof (mix_byte _ _ _ Hb4 Hf4 Ho).
  destruct (_ =? 0); [repeat split; cbn; unfold is_byte; lia|].
  destruct (_ =? 0); [(split; [|split; [|split]]); cbn [pr pg pb pa mkpx]; assumption|].
  destruct (_ =? 0); [(split; [|split; [|split]]); cbn [pr pg pb pa mkpx]; assumption|].
  (split; [|split; [|split]]); cbn [pr pg pb pa mkpx]; try assumption; now apply mix_byte.
Qed.

(** ** One channel of each mode *)
Lemma u8c_id {E} c z : is_byte z -> @u8c E c z = Ok z.
Proof. unfold is_byte. intro H. unfold u8c, checked. replace ((0 <=? z) && (z <? 0 + 2 ^ 8)) with true by lia. reflexivity. Qed.

Lemma multiply_ch a b : is_byte a -> is_byte b ->
  exists q, is_byte q /\ rounded (a * b) 255 q /\ forall c, blend_multiply c a b = Ok q.
Proof.
  intros Ha Hb. exists (div255 (a * b)). pose proof (prod_byte _ _ Ha Hb).
  split; [now apply div255_byte|]. split; [now apply div255_rounded|]. intro c. now apply mul8_eq.
Qed.

Lemma mul_small a b q : is_byte a -> is_byte b -> rounded (a * b) 255 q -> 0 <= q <= Z.min a b /\ a + b - q <= 255.
Proof.
  unfold is_byte, rounded. intros Ha Hb Hq. assert (0 <= a * b <= 255 * a) by nia. assert (a * b <= 255 * b) by nia.
  assert (0 <= (255 - a) * (255 - b)) by nia. lia.
Qed.

Lemma screen_ch a b : is_byte a -> is_byte b ->
  exists q, is_byte q /\ rounded (255 * 255 - (255 - a) * (255 - b)) 255 q /\ forall c, blend_screen c a b = Ok q.
Proof.
  intros Ha Hb. destruct (multiply_ch a b Ha Hb) as (q & Hq & Hr & He). exists (a + b - q).
  pose proof (mul_small _ _ _ Ha Hb Hr) as Hm. unfold is_byte in *.
  split; [lia|]. split; [unfold rounded in *; lia|]. intro c. unfold blend_screen.
  rewrite i32c_id by lia. cbn [bind]. unfold blend_multiply in He. rewrite He. cbn [bind]. rewrite i32c_id by lia. cbn [bind].
  f_equal. apply as_u8_id. unfold is_byte. lia.
Qed.

Lemma hard_light_ch b s : is_byte b -> is_byte s ->
  exists q, is_byte q /\ (if s <? 128 then rounded (2 * b * s) 255 q
                else rounded (255 * 255 - 2 * (255 - b) * (255 - s)) 255 q) /\ forall c, blend_hard_light c b s = Ok q.
Proof.
  intros Hb Hs. unfold blend_hard_light.
  assert (E : wrap (- 2 ^ 31) 32 (Z.shiftl s 1) = 2 * s).
  { rewrite Z.shiftl_mul_pow2 by lia. unfold wrap, is_byte in *. rewrite Z.mod_small by lia. lia. }
  rewrite E. destruct (Z.ltb_spec s 128) as [H|H].
  - destruct (multiply_ch b (2 * s) Hb) as (q & Hq & Hr & He); [unfold is_byte in *; lia|]. exists q. split; [exact Hq|].
    split; [|exact He]. now replace (2 * b * s) with (b * (2 * s)) by ring.
  - destruct (screen_ch b (2 * s - 255) Hb) as (q & Hq & Hr & He); [unfold is_byte in *; lia|]. exists q. split; [exact Hq|].
    split; [|intro c; rewrite i32c_id by (unfold is_byte in *; lia); apply He].
    now replace (255 * 255 - 2 * (255 - b) * (255 - s)) with (255 * 255 - (255 - b) * (255 - (2 * s - 255))) by ring.
Qed.

Lemma dodge_ch b s : is_byte b -> is_byte s ->
  exists q, is_byte q /\ formula BColorDodge b s q /\ forall c, blend_color_dodge c b s = Ok q.
Proof.
  intros Hb Hs. unfold blend_color_dodge, formula. destruct (Z.eqb_spec b 0) as [E|E].
  { exists 0. unfold is_byte. repeat split; lia. }
  destruct (Z.leb_spec 255 (b + s)) as [H|H].
  - exists 255. split; [unfold is_byte; lia|]. split; [reflexivity|]. intro c. unfold is_byte in *.
    rewrite i32c_id by lia. cbn [bind]. replace (255 - s <=? b) with true by lia. reflexivity.
  - assert (Hd : forall c, exists q, div8 c b (255 - s) = Ok q /\ is_byte q /\ rounded (255 * b) (255 - s) q).
    { intro c. apply div8_eq; unfold is_byte in *; lia. }
    destruct (Hd {| debug := true; usize_bits := 64 |}) as (q & He & Hq & Hr). exists q. split; [exact Hq|]. split; [exact Hr|].
    intro c. unfold is_byte in *. rewrite i32c_id by lia. cbn [bind]. replace (255 - s <=? b) with false by lia.
    destruct (Hd c) as (q' & He' & Hq' & Hr'). rewrite He'. f_equal. apply (rounded_unique (255 * b) (255 - s)); [lia|assumption..].
Qed.

Lemma divide_ch b s : is_byte b -> is_byte s ->
  exists q, is_byte q /\ formula BDivide b s q /\ forall c, blend_divide c b s = Ok q.
Proof.
  intros Hb Hs. unfold blend_divide, formula. destruct (Z.eqb_spec b 0) as [E|E].
  { exists 0. unfold is_byte. repeat split; lia. }
  destruct (Z.leb_spec s b) as [H|H].
  - exists 255. unfold is_byte. repeat split; lia.
  - assert (Hd : forall c, exists q, div8 c b s = Ok q /\ is_byte q /\ rounded (255 * b) s q).
    { intro c. apply div8_eq; unfold is_byte in *; lia. }
    destruct (Hd {| debug := true; usize_bits := 64 |}) as (q & He & Hq & Hr). exists q. split; [exact Hq|]. split; [exact Hr|].
    intro c. destruct (Hd c) as (q' & He' & Hq' & Hr'). rewrite He'. f_equal.
    apply (rounded_unique (255 * b) s); [unfold is_byte in *; lia|assumption..].
Qed.

Lemma burn_ch b s : is_byte b -> is_byte s ->
  exists q, is_byte q /\ formula BColorBurn b s q /\ forall c, blend_color_burn c b s = Ok q.
Proof.
  intros Hb Hs. unfold blend_color_burn, formula. destruct (Z.eqb_spec b 255) as [E|E].
  { exists 255. unfold is_byte. repeat split; lia. }
  destruct (Z.leb_spec (b + s) 255) as [H|H].
  - exists 0. split; [unfold is_byte; lia|]. split; [reflexivity|]. intro c. unfold is_byte in *.
    rewrite i32c_id by lia. cbn [bind]. replace (s <=? 255 - b) with true by lia. reflexivity.
  - assert (Hd : forall c, exists q, div8 c (255 - b) s = Ok q /\ is_byte q /\ rounded (255 * (255 - b)) s q).
    { intro c. apply div8_eq; unfold is_byte in *; lia. }
    destruct (Hd {| debug := true; usize_bits := 64 |}) as (q & He & Hq & Hr). exists (255 - q).
    split; [unfold is_byte in *; lia|]. split; [now replace (255 - (255 - q)) with q by lia|].
    intro c. unfold is_byte in *. rewrite i32c_id by lia. cbn [bind]. replace (s <=? 255 - b) with false by lia.
    destruct (Hd c) as (q' & He' & Hq' & Hr'). rewrite He'. cbn [bind].
    assert (q' = q) as -> by (apply (rounded_unique (255 * (255 - b)) s); [lia|assumption..]).
    apply u8c_id. unfold is_byte. lia.
Qed.
