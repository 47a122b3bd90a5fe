(** The decompressor of Model/Inflate.v reads exactly the streams of
    Spec/Deflate.v. *)
From Coq Require Import Lia.
From Verif.Model Require Import Loader Inflate.
From Verif.Spec Require Import Bytes ImageSpec Zlib Deflate.
From Verif.Proofs Require Import ParseLib InflateFacts.

(** ** Bits *)
Lemma lsb_app a b : lsb (a ++ b) = lsb a + 2 ^ zlen a * lsb b.
Proof.
  induction a as [|x a IH]; cbn [app lsb]; [cbn; lia|]. rewrite IH. unfold zlen. cbn [length].
  rewrite Nat2Z.inj_succ, Z.pow_succ_r by lia. lia.
Qed.
Lemma lsb_range a : 0 <= lsb a < 2 ^ zlen a.
Proof.
  induction a as [|x a IH]; [cbn; lia|]. cbn [lsb]. unfold zlen in *. cbn [length].
  rewrite Nat2Z.inj_succ, Z.pow_succ_r by lia. destruct x; cbn [Z.b2z]; lia.
Qed.
Lemma zlen_rev {A} (l : list A) : zlen (rev l) = zlen l.
Proof. unfold zlen. now rewrite rev_length. Qed.
Lemma msb_cons x b : msb (x :: b) = Z.b2z x * 2 ^ zlen b + msb b.
Proof. unfold msb. cbn [rev]. rewrite lsb_app, zlen_rev. cbn [lsb]. lia. Qed.
Lemma msb_range b : 0 <= msb b < 2 ^ zlen b.
Proof. unfold msb. rewrite <- zlen_rev. apply lsb_range. Qed.

Lemma take_bits_eq x r : take_bits (length x) (x ++ r) = Got (lsb x) r.
Proof. induction x as [|v x IH]; [reflexivity|]. cbn [length app take_bits lsb]. now rewrite IH. Qed.
Lemma take_bits_got k : forall b v r, take_bits k b = Got v r -> exists x, length x = k /\ b = x ++ r /\ v = lsb x.
Proof.
  induction k as [|k IH]; intros b v r; cbn [take_bits].
  - intros [= <- <-]. now exists [].
  - destruct b as [|y b]; [discriminate|]. destruct (take_bits k b) as [v' r'| |] eqn:E; try discriminate.
    intros [= <- <-]. destruct (IH _ _ _ E) as (x & Hx & -> & ->). exists (y :: x). cbn. auto.
Qed.
Lemma take_bits_len k x r : zlen x = Z.of_nat k -> take_bits k (x ++ r) = Got (lsb x) r.
Proof. intro H. replace k with (length x) by (unfold zlen in H; lia). apply take_bits_eq. Qed.

Lemma byte_bits_lsb x : byte_bits (length x) (lsb x) = x.
Proof.
  induction x as [|v x IH]; [reflexivity|]. cbn [length byte_bits lsb].
  rewrite Z.odd_add_mul_2. rewrite (Z.mul_comm 2), Z.div_add by lia.
  replace (Z.b2z v / 2) with 0 by (now destruct v). rewrite Z.add_0_l, IH. now destruct v.
Qed.
Lemma packed_bits l b : packed l b -> bits_of l = b /\ is_bytes l.
Proof.
  induction 1 as [|v l b Hv _ [IH1 IH2]]; [split; [reflexivity|constructor]|].
  rewrite bits_cons, IH1. pose proof (byte_bits_lsb v) as E. rewrite Hv in E. rewrite E. split; [reflexivity|].
  constructor; [|exact IH2]. pose proof (lsb_range v) as R. unfold zlen in R. rewrite Hv in R. exact R.
Qed.
Lemma lsb_byte_bits k : forall v, lsb (byte_bits k v) = v mod 2 ^ Z.of_nat k.
Proof.
  intro v. pose proof (take_byte_bits k v []) as E. rewrite app_nil_r in E.
  pose proof (take_bits_eq (byte_bits k v) []) as F. rewrite byte_bits_length, app_nil_r in F. congruence.
Qed.
Lemma bits_packed l : is_bytes l -> packed l (bits_of l).
Proof.
  induction 1 as [|x l Hx _ IH]; [constructor|]. rewrite bits_cons.
  replace x with (lsb (byte_bits 8 x)) at 1 by (rewrite lsb_byte_bits; apply Z.mod_small, Hx).
  constructor; [apply byte_bits_length|exact IH].
Qed.

(** ** Codes *)
Definition syms (ls : list Z) (k : Z) : list Z :=
  map fst (filter (fun '(_, n) => n =? k) (enumerate ls)).

Lemma num_cons {A} o (x : A) l : combine (map Z.of_nat (seq o (length (x :: l)))) (x :: l) =
  (Z.of_nat o, x) :: combine (map Z.of_nat (seq (S o) (length l))) l.
Proof. reflexivity. Qed.

Lemma syms_nth_from ls k : forall o i s,
  nth_error (map fst (filter (fun '(_, n) => n =? k) (combine (map Z.of_nat (seq o (length ls))) ls))) i = Some s <->
  exists j, s = Z.of_nat (o + j) /\ nth_error ls j = Some k /\ count_occ Z.eq_dec (firstn j ls) k = i.
Proof.
  induction ls as [|x ls IH]; intros o i s.
  - cbn. split; [destruct i; discriminate|]. intros ([|j] & _ & H & _); discriminate.
  - rewrite num_cons. cbn [filter]. destruct (Z.eqb_spec x k) as [->|Hx].
    + cbn [map fst]. destruct i as [|i]; cbn [nth_error].
      * split; [intros [= <-]; exists 0%nat; cbn; split; [f_equal; lia|auto]|].
        intros ([|j] & -> & Hj & Hc); [f_equal; f_equal; lia|]. cbn [firstn count_occ] in Hc.
        destruct (Z.eq_dec k k); [discriminate|contradiction].
      * rewrite IH. split.
        -- intros (j & -> & Hj & Hc). exists (S j). cbn [nth_error firstn count_occ].
           destruct (Z.eq_dec k k); [|contradiction]. repeat split; [f_equal; lia|exact Hj|congruence].
        -- intros ([|j] & -> & Hj & Hc); [cbn in Hc; discriminate|]. exists j. cbn [nth_error firstn count_occ] in *.
           destruct (Z.eq_dec k k); [|contradiction]. repeat split; [f_equal; lia|exact Hj|congruence].
    + rewrite IH. split.
      * intros (j & -> & Hj & Hc). exists (S j). cbn [nth_error firstn count_occ].
        destruct (Z.eq_dec x k); [contradiction|]. repeat split; [f_equal; lia|exact Hj|exact Hc].
      * intros ([|j] & -> & Hj & Hc); [cbn in Hj; congruence|]. exists j. cbn [nth_error firstn count_occ] in *.
        destruct (Z.eq_dec x k); [contradiction|]. repeat split; [f_equal; lia|exact Hj|exact Hc].
Qed.
Lemma syms_nth ls k i s : nth_error (syms ls k) i = Some s <->
  exists j, s = Z.of_nat j /\ nth_error ls j = Some k /\ count_occ Z.eq_dec (firstn j ls) k = i.
Proof. exact (syms_nth_from ls k 0 i s). Qed.

Lemma syms_len_from ls k : forall o,
  length (filter (fun '(_, n) => n =? k) (combine (map Z.of_nat (seq o (length ls))) ls)) = count_occ Z.eq_dec ls k.
Proof.
  induction ls as [|x ls IH]; intros o; [reflexivity|]. rewrite num_cons. cbn [filter count_occ].
  destruct (Z.eqb_spec x k) as [E|E]; destruct (Z.eq_dec x k); try contradiction; cbn [length]; now rewrite IH.
Qed.
Lemma syms_len ls k : zlen (syms ls k) = Z.of_nat (count_occ Z.eq_dec ls k).
Proof. unfold zlen, syms. rewrite map_length. f_equal. apply syms_len_from. Qed.

(** How the first words follow each other *)
Lemma first_word_1 ls : first_word ls 1 = 0.
Proof.
  unfold first_word. induction ls as [|x ls IH]; [reflexivity|]. cbn [map total fold_right]. unfold total in IH. rewrite IH.
  destruct (Z.ltb_spec 0 x); cbn [andb]; [|reflexivity]. destruct (Z.ltb_spec x 1); lia.
Qed.
Lemma first_word_next ls n : 1 <= n -> first_word ls (n + 1) = 2 * (first_word ls n + Z.of_nat (count_occ Z.eq_dec ls n)).
Proof.
  intro Hn. unfold first_word. induction ls as [|x ls IH]; [reflexivity|]. cbn [map total fold_right count_occ].
  unfold total in IH. rewrite IH.
  destruct (Z.eq_dec x n) as [->|Hx].
  - replace ((0 <? n) && (n <? n)) with false by lia. replace ((0 <? n) && (n <? n + 1)) with true by lia.
    replace (n + 1 - n) with 1 by lia. change (2 ^ 1) with 2. lia.
  - destruct ((0 <? x) && (x <? n)) eqn:E.
    + replace ((0 <? x) && (x <? n + 1)) with true by lia. replace (n + 1 - x) with (Z.succ (n - x)) by lia.
      rewrite Z.pow_succ_r by lia. lia.
    + replace ((0 <? x) && (x <? n + 1)) with false by lia. lia.
Qed.
Lemma first_word_later ls n d : 1 <= n -> 0 <= d ->
  2 ^ (d + 1) * (first_word ls n + Z.of_nat (count_occ Z.eq_dec ls n)) <= first_word ls (n + 1 + d).
Proof.
  intros Hn Hd. revert d Hd. refine (natlike_ind _ _ _).
  - rewrite Z.add_0_r, first_word_next by exact Hn. change (2 ^ (0 + 1)) with 2. lia.
  - intros d Hd IH. replace (n + 1 + Z.succ d) with ((n + 1 + d) + 1) by lia. rewrite first_word_next by lia.
    replace (Z.succ d + 1) with (Z.succ (d + 1)) by lia. rewrite Z.pow_succ_r by lia. lia.
Qed.

Definition levels (ls : list Z) (n : Z) (m : nat) : code_table := map (fun j => syms ls (n + Z.of_nat j)) (seq 0 m).
Lemma levels_S ls n m : levels ls n (S m) = syms ls n :: levels ls (n + 1) m.
Proof.
  unfold levels. cbn [seq map]. rewrite Z.add_0_r. f_equal. rewrite <- seq_shift, map_map. apply map_ext. intro j. f_equal. lia.
Qed.
Lemma make_table_levels ls : make_table ls = levels ls 1 15.
Proof. reflexivity. Qed.

Lemma decode_sound ls m : forall n code first b s r, 1 <= n -> 2 * first = first_word ls n ->
  decode_symbol (levels ls n m) code first b = Got s r ->
  exists j L bits, s = Z.of_nat j /\ nth_error ls j = Some L /\ n <= L < n + Z.of_nat m /\ b = bits ++ r /\
    zlen bits = L - n + 1 /\ code * 2 ^ zlen bits + msb bits = word_value ls j L.
Proof.
  induction m as [|m IH]; intros n code first b s r Hn Hf; [discriminate|]. rewrite levels_S. cbn [decode_symbol].
  destruct b as [|x b]; [discriminate|]. rewrite Hf.
  destruct (if _ <? _ then None else _) as [v|] eqn:E.
  - intros [= <- <-]. destruct (Z.ltb_spec (2 * code + Z.b2z x) (first_word ls n)); [discriminate|].
    apply syms_nth in E. destruct E as (j & -> & Hj & Hc). exists j, n, [x].
    repeat (split; [first [reflexivity | assumption | lia | (cbn; lia)]|]). unfold word_value. rewrite Hc, msb_cons. cbn. lia.
  - intro H. apply IH in H; [|lia|].
    + destruct H as (j & L & bits & -> & Hj & HL & -> & Hlen & Hw). exists j, L, (x :: bits).
      split; [reflexivity|]. split; [exact Hj|]. split; [lia|]. split; [reflexivity|].
      rewrite msb_cons. unfold zlen in *. cbn [length]. split; [lia|]. rewrite Nat2Z.inj_succ, Z.pow_succ_r by lia.
      rewrite <- Hw. lia.
    + rewrite first_word_next by exact Hn. rewrite syms_len. reflexivity.
Qed.

Lemma decode_complete ls m : forall n code first j L bits r, 1 <= n -> 2 * first = first_word ls n ->
  nth_error ls j = Some L -> n <= L < n + Z.of_nat m -> zlen bits = L - n + 1 ->
  code * 2 ^ zlen bits + msb bits = word_value ls j L ->
  decode_symbol (levels ls n m) code first (bits ++ r) = Got (Z.of_nat j) r.
Proof.
  induction m as [|m IH]; intros n code first j L bits r Hn Hf Hj HL Hlen Hw; [lia|]. rewrite levels_S. cbn [decode_symbol].
  destruct bits as [|x bits]; [unfold zlen in Hlen; cbn in Hlen; lia|]. cbn [app]. rewrite Hf.
  rewrite msb_cons in Hw. unfold zlen in Hlen, Hw. cbn [length] in Hlen, Hw. rewrite Nat2Z.inj_succ, Z.pow_succ_r in Hw by lia.
  pose proof (msb_range bits) as R. unfold zlen in R.
  destruct (Z.eq_dec L n) as [->|Hne].
  - destruct bits as [|y bits]; [|cbn [length] in Hlen; lia]. cbn [length app] in *. unfold word_value in Hw.
    change (msb []) with 0 in Hw. change (2 ^ Z.of_nat 0) with 1 in Hw.
    replace (2 * code + Z.b2z x <? first_word ls n) with false by lia.
    replace (Z.to_nat _) with (count_occ Z.eq_dec (firstn j ls) n) by lia.
    rewrite (proj2 (syms_nth ls n _ (Z.of_nat j))); [reflexivity|]. exists j. auto.
  - assert (HB : 2 ^ (L - n) * (first_word ls n + Z.of_nat (count_occ Z.eq_dec ls n)) <= word_value ls j L).
    { unfold word_value. pose proof (first_word_later ls n (L - n - 1) Hn ltac:(lia)) as G.
      replace (L - n - 1 + 1) with (L - n) in G by lia. replace (n + 1 + (L - n - 1)) with L in G by lia. lia. }
    replace (L - n) with (Z.of_nat (length bits)) in HB by lia.
    set (P := 2 ^ Z.of_nat (length bits)) in *.
    assert (HC : first_word ls n + Z.of_nat (count_occ Z.eq_dec ls n) <= 2 * code + Z.b2z x) by nia.
    replace (2 * code + Z.b2z x <? first_word ls n) with false by lia.
    replace (nth_error (syms ls n) _) with (@None Z).
    2: { symmetry. apply nth_error_None. pose proof (syms_len ls n) as E. unfold zlen in E. lia. }
    apply (IH (n + 1) _ _ j L); [lia| |exact Hj|lia|unfold zlen; lia|].
    + rewrite first_word_next, syms_len by exact Hn. reflexivity.
    + unfold zlen. fold P. lia.
Qed.

Lemma decode_word ls j b r : codeword ls j b -> decode_symbol (make_table ls) 0 0 (b ++ r) = Got (Z.of_nat j) r.
Proof.
  intros (n & Hj & Hn & Hb & Hw). rewrite make_table_levels.
  apply (decode_complete ls 15 1 0 0 j n b r); [lia|now rewrite first_word_1|exact Hj|lia|lia|lia].
Qed.
Lemma word_decoded ls b s r : decode_symbol (make_table ls) 0 0 b = Got s r ->
  exists j x, s = Z.of_nat j /\ b = x ++ r /\ codeword ls j x.
Proof.
  rewrite make_table_levels. intro H. apply decode_sound in H; [|lia|now rewrite first_word_1].
  destruct H as (j & L & x & -> & Hj & HL & -> & Hl & Hw). exists j, x. split; [reflexivity|]. split; [reflexivity|].
  exists L. split; [exact Hj|]. split; [lia|]. split; [lia|]. lia.
Qed.
Lemma codeword_nonempty ls j b : codeword ls j b -> (1 <= length b)%nat.
Proof. intros (n & _ & Hn & Hb & _). unfold zlen in Hb. lia. Qed.

(** *** Completeness of codes *)
Definition space (ls : list Z) (n : Z) : Z := total (map (fun k => if (0 <? k) && (k <=? n) then 2 ^ (n - k) else 0) ls).
Lemma space_0 ls : space ls 0 = 0.
Proof.
  unfold space, total. induction ls as [|x ls IH]; [reflexivity|]. cbn [map fold_right]. rewrite IH.
  destruct (Z.ltb_spec 0 x); cbn [andb]; [|reflexivity]. destruct (Z.leb_spec x 0); lia.
Qed.
Lemma space_next ls n : 0 <= n -> space ls (n + 1) = 2 * space ls n + Z.of_nat (count_occ Z.eq_dec ls (n + 1)).
Proof.
  intro Hn. unfold space, total. induction ls as [|x ls IH]; [reflexivity|]. cbn [map fold_right count_occ]. rewrite IH.
  destruct (Z.eq_dec x (n + 1)) as [->|Hx].
  - replace ((0 <? n + 1) && (n + 1 <=? n)) with false by lia. replace ((0 <? n + 1) && (n + 1 <=? n + 1)) with true by lia.
    replace (n + 1 - (n + 1)) with 0 by lia. change (2 ^ 0) with 1. lia.
  - destruct ((0 <? x) && (x <=? n)) eqn:E.
    + replace ((0 <? x) && (x <=? n + 1)) with true by lia. replace (n + 1 - x) with (Z.succ (n - x)) by lia.
      rewrite Z.pow_succ_r by lia. lia.
    + replace ((0 <? x) && (x <=? n + 1)) with false by lia. lia.
Qed.
Lemma codes_left_levels ls m : forall n free, 0 <= n -> free = 2 ^ n - space ls n ->
  codes_left free (levels ls (n + 1) m) =
    if (m =? 0)%nat then Some free else
    if 2 ^ (n + Z.of_nat m) - space ls (n + Z.of_nat m) <? 0 then None
    else Some (2 ^ (n + Z.of_nat m) - space ls (n + Z.of_nat m)).
Proof.
  induction m as [|m IH]; intros n free Hn ->; [reflexivity|]. rewrite levels_S. cbn [codes_left Nat.eqb].
  rewrite syms_len. cbv zeta.
  replace (2 * (2 ^ n - space ls n) - Z.of_nat (count_occ Z.eq_dec ls (n + 1))) with (2 ^ (n + 1) - space ls (n + 1)).
  2: { rewrite space_next by exact Hn. rewrite Z.pow_add_r by lia. lia. }
  assert (M : forall d, 0 <= d -> 2 ^ (n + 1 + d) - space ls (n + 1 + d) <= 2 ^ d * (2 ^ (n + 1) - space ls (n + 1))).
  { refine (natlike_ind _ _ _).
    - rewrite Z.add_0_r. change (2 ^ 0) with 1. lia.
    - intros d Hd G. replace (n + 1 + Z.succ d) with (n + 1 + d + 1) by lia. rewrite space_next by lia.
      rewrite Z.pow_add_r, (Z.pow_succ_r 2 d) by lia. lia. }
  specialize (M (Z.of_nat m) ltac:(lia)). rewrite Nat2Z.inj_succ.
  replace (n + Z.succ (Z.of_nat m)) with (n + 1 + Z.of_nat m) by lia.
  assert (P : 0 < 2 ^ Z.of_nat m) by (apply Z.pow_pos_nonneg; lia).
  destruct (Z.ltb_spec (2 ^ (n + 1) - space ls (n + 1)) 0) as [H|H].
  - destruct (Z.ltb_spec (2 ^ (n + 1 + Z.of_nat m) - space ls (n + 1 + Z.of_nat m)) 0); [reflexivity|nia].
  - rewrite IH; [|lia|reflexivity]. destruct m as [|m]; cbn [Nat.eqb]; [|reflexivity].
    change (Z.of_nat 0) with 0. rewrite Z.add_0_r. replace (_ <? 0) with false by lia. reflexivity.
Qed.

Definition lengths_ok (ls : list Z) : Prop := Forall (fun k => 0 <= k <= 15) ls.
Lemma space_15 ls : lengths_ok ls ->
  space ls 15 = total (map (fun k => if 0 <? k then 2 ^ (15 - k) else 0) ls).
Proof.
  unfold space, total. induction 1 as [|x ls Hx _ IH]; [reflexivity|]. cbn [map fold_right]. rewrite IH.
  replace (x <=? 15) with true by lia. now rewrite andb_true_r.
Qed.
Lemma levels_concat ls m : forall n, zlen (concat (levels ls n m)) =
  zlen (filter (fun k => (n <=? k) && (k <? n + Z.of_nat m)) ls).
Proof.
  induction m as [|m IH]; intro n.
  - cbn [levels seq map concat]. replace (filter _ ls) with (@nil Z); [reflexivity|]. symmetry.
    induction ls as [|x ls IHl]; [reflexivity|]. cbn [filter]. destruct (_ && _) eqn:E; [lia|exact IHl].
  - rewrite levels_S. cbn [concat]. rewrite zlen_app, syms_len, IH. clear IH. unfold zlen.
    induction ls as [|x ls IHl]; [reflexivity|]. cbn [filter count_occ].
    destruct (Z.eq_dec x n) as [->|Hx].
    + replace ((n <=? n) && (n <? n + Z.of_nat (S m))) with true by lia.
      replace ((n + 1 <=? n) && (n <? n + 1 + Z.of_nat m)) with false by lia. cbn [length]. lia.
    + replace ((n <=? x) && (x <? n + Z.of_nat (S m))) with ((n + 1 <=? x) && (x <? n + 1 + Z.of_nat m)) by lia.
      destruct (_ && _); cbn [length]; lia.
Qed.
Lemma concat_nonzero ls : lengths_ok ls -> zlen (concat (make_table ls)) = zlen (filter (fun k => 0 <? k) ls).
Proof.
  intro H. rewrite make_table_levels, levels_concat. f_equal. induction H as [|x ls Hx _ IH]; [reflexivity|].
  cbn [filter]. rewrite IH. replace ((1 <=? x) && (x <? 1 + Z.of_nat 15)) with (0 <? x) by lia. reflexivity.
Qed.
Lemma few_space ls : lengths_ok ls -> zlen (filter (fun k => 0 <? k) ls) <= 1 -> space ls 15 <= 2 ^ 15.
Proof.
  intros H. rewrite space_15 by exact H. revert H. unfold total, zlen. induction ls as [|x ls IH]; intros H; [cbn; lia|].
  inversion H as [|? ? Hx Hl]; subst. cbn [filter map fold_right].
  destruct (Z.ltb_spec 0 x) as [Hp|Hp]; [|intro G; specialize (IH Hl G); lia].
  cbn [length]. intro G. destruct (filter (fun k => 0 <? k) ls) eqn:E; [|cbn [length] in G; lia].
  assert (Z0 : fold_right Z.add 0 (map (fun k => if 0 <? k then 2 ^ (15 - k) else 0) ls) = 0).
  { clear - E. induction ls as [|y ls IH]; [reflexivity|]. cbn [filter map fold_right] in *.
    destruct (0 <? y); [discriminate|]. rewrite IH by exact E. reflexivity. }
  rewrite Z0. pose proof (Z.pow_le_mono_r 2 (15 - x) 15). lia.
Qed.
Lemma table_ok_usable ls : lengths_ok ls -> (table_ok (make_table ls) = true <-> usable ls).
Proof.
  intro H. unfold table_ok, usable. rewrite concat_nonzero by exact H. rewrite make_table_levels.
  change (levels ls 1 15) with (levels ls (0 + 1) 15).
  rewrite (codes_left_levels ls 15 0 1); [|lia|rewrite space_0; reflexivity].
  cbn [Nat.eqb]. change (0 + Z.of_nat 15) with 15. rewrite <- space_15 by exact H.
  pose proof (few_space ls H) as F.
  destruct (Z.ltb_spec (2 ^ 15 - space ls 15) 0) as [G|G].
  - split; [discriminate|]. intros [E|E]; [lia|]. specialize (F E). lia.
  - rewrite orb_true_iff. rewrite Z.eqb_eq, Z.leb_le. split; (intros [E|E]; [left; lia|right; exact E]).
Qed.

(** ** Output *)
(** [out] written into a buffer of [n] bytes *)
Definition st (n : Z) (out : bytes) : zout := {| z_out := rev out; z_room := n - zlen out |}.
Lemma emit_st n (out : bytes) v : emit (st n out) v = if n <=? zlen out then None else Some (st n (out ++ [v])).
Proof.
  unfold emit, st. cbn [z_room z_out]. destruct (Z.leb_spec n (zlen out)); destruct (Z.leb_spec (n - zlen out) 0); try lia; [reflexivity|].
  rewrite rev_app_distr, zlen_app. cbn [rev app]. change (zlen [v]) with 1. do 2 f_equal. lia.
Qed.
Lemma back_st (out : bytes) (d : nat) : (1 <= d <= length out)%nat ->
  nth_error (rev out) (d - 1) = nth_error out (length out - d).
Proof.
  intro H. assert (G : (length out - d < length out)%nat) by lia.
  rewrite (nth_error_nth' (rev out) 0) by (rewrite rev_length; lia). rewrite (nth_error_nth' out 0) by exact G.
  rewrite rev_nth by lia. do 2 f_equal. lia.
Qed.

Definition follows (out : bytes) (d : nat) (l : bytes) : Prop :=
  forall k, (k < length l)%nat -> nth_error (out ++ l) (length out + k) = nth_error (out ++ l) (length out + k - d).
Lemma follows_cons (out : bytes) d x l : (1 <= d <= length out)%nat ->
  (follows out d (x :: l) <-> nth_error out (length out - d) = Some x /\ follows (out ++ [x]) d l).
Proof.
  intro Hd. unfold follows. rewrite <- app_assoc. cbn [app]. split.
  - intro H. split.
    + specialize (H 0%nat ltac:(cbn; lia)). rewrite Nat.add_0_r in H. rewrite nth_error_app2, Nat.sub_diag in H by lia.
      rewrite nth_error_app1 in H by lia. cbn in H. congruence.
    + intros k Hk. specialize (H (S k) ltac:(cbn; lia)). rewrite app_length. cbn [length].
      replace (length out + 1 + k)%nat with (length out + S k)%nat by lia. exact H.
  - intros [H0 H] [|k] Hk.
    + rewrite Nat.add_0_r. rewrite nth_error_app2, Nat.sub_diag by lia. rewrite nth_error_app1 by lia. now rewrite H0.
    + cbn [length] in Hk. specialize (H k ltac:(lia)). rewrite app_length in H. cbn [length] in H.
      replace (length out + 1 + k)%nat with (length out + S k)%nat in H by lia. exact H.
Qed.

Lemma copy_complete n d l : forall out b, (1 <= d <= length out)%nat -> follows out d l -> zlen (out ++ l) <= n ->
  copy_back (length l) (d - 1) (st n out) b = Going (st n (out ++ l)) b.
Proof.
  induction l as [|x l IH]; intros out b Hd Hf Hn; cbn [length copy_back]; [now rewrite app_nil_r|].
  apply follows_cons in Hf; [|exact Hd]. destruct Hf as [Hx Hf]. cbn [st z_out]. rewrite back_st, Hx by exact Hd.
  fold (st n out). change {| z_out := rev out; z_room := n - zlen out |} with (st n out). rewrite emit_st.
  assert (Hn' : zlen (out ++ x :: l) = zlen out + 1 + zlen l) by (rewrite zlen_app; unfold zlen; cbn [length]; lia).
  pose proof (zlen_nonneg l). replace (n <=? zlen out) with false by lia.
  rewrite IH.
  - now rewrite <- app_assoc.
  - rewrite app_length. cbn. lia.
  - exact Hf.
  - now rewrite <- app_assoc.
Qed.
Lemma copy_sound n d k : forall out b o' b', (1 <= d)%nat -> copy_back k (d - 1) (st n out) b = Going o' b' ->
  zlen out <= n ->
  exists l, length l = k /\ o' = st n (out ++ l) /\ b' = b /\ zlen (out ++ l) <= n /\
    (k = 0%nat \/ (d <= length out)%nat) /\ ((d <= length out)%nat -> follows out d l).
Proof.
  induction k as [|k IH]; intros out b o' b' Hd; cbn [copy_back].
  - intros [= <- <-] Hn. exists []. rewrite app_nil_r. repeat (split; [auto|]). intros _ k Hk. cbn in Hk. lia.
  - cbn [st z_out]. destruct (nth_error (rev out) (d - 1)) as [v|] eqn:E; [|discriminate].
    assert (Hl : (d <= length out)%nat).
    { assert (d - 1 < length (rev out))%nat by (apply nth_error_Some; congruence). rewrite rev_length in *. lia. }
    change {| z_out := rev out; z_room := n - zlen out |} with (st n out). rewrite emit_st.
    destruct (Z.leb_spec n (zlen out)) as [|Hn]; [discriminate|]. intros H _.
    apply IH in H; [|exact Hd|rewrite zlen_app; change (zlen [v]) with 1; lia].
    destruct H as (l & <- & -> & -> & Hn' & _ & Hf). exists (v :: l). rewrite <- app_assoc in *. cbn [app] in *.
    repeat (split; [auto|]). intros _. apply follows_cons; [lia|]. rewrite back_st in E by lia. split; [exact E|].
    apply Hf. rewrite app_length. cbn. lia.
Qed.

(** ** Elements *)
Lemma length_codes_eq : forall k, (k <= 28)%nat ->
  nth_error length_codes k = Some (length_base (Z.of_nat k), Z.to_nat (length_extra (Z.of_nat k))) /\ 0 <= length_extra (Z.of_nat k) /\ 3 <= length_base (Z.of_nat k).
Proof.
  assert (G : forallb (fun k => match nth_error length_codes k with
     | Some (v, n) => (v =? length_base (Z.of_nat k)) && (Z.of_nat n =? length_extra (Z.of_nat k)) && (3 <=? v)
     | None => false end) (seq 0 29) = true) by (vm_compute; reflexivity).
  intros k Hk. rewrite forallb_forall in G. specialize (G k ltac:(apply in_seq; lia)).
  destruct (nth_error length_codes k) as [[v n]|]; [|discriminate]. rewrite !andb_true_iff in G.
  destruct G as [[G1 G2] G3]. apply Z.eqb_eq in G1, G2. rewrite <- G1, <- G2. rewrite Nat2Z.id. split; [reflexivity|lia].
Qed.
Lemma distance_codes_eq : forall k, (k <= 29)%nat ->
  nth_error distance_codes k = Some (distance_base (Z.of_nat k), Z.to_nat (distance_extra (Z.of_nat k))) /\ 0 <= distance_extra (Z.of_nat k) /\ 1 <= distance_base (Z.of_nat k).
Proof.
  assert (G : forallb (fun k => match nth_error distance_codes k with
     | Some (v, n) => (v =? distance_base (Z.of_nat k)) && (Z.of_nat n =? distance_extra (Z.of_nat k)) && (1 <=? v)
     | None => false end) (seq 0 30) = true) by (vm_compute; reflexivity).
  intros k Hk. rewrite forallb_forall in G. specialize (G k ltac:(apply in_seq; lia)).
  destruct (nth_error distance_codes k) as [[v n]|]; [|discriminate]. rewrite !andb_true_iff in G.
  destruct G as [[G1 G2] G3]. apply Z.eqb_eq in G1, G2. rewrite <- G1, <- G2. rewrite Nat2Z.id. split; [reflexivity|lia].
Qed.
Lemma extended_complete codes k base extra x r : nth_error codes (Z.to_nat k) = Some (base, Z.to_nat extra) ->
  zlen x = extra -> extended codes k (x ++ r) = Got (base + lsb x) r.
Proof.
  intros E <-. unfold extended. rewrite E. rewrite take_bits_len; [reflexivity|]. unfold zlen. lia.
Qed.
Lemma extended_sound codes k b v r : extended codes k b = Got v r ->
  exists base extra x, nth_error codes (Z.to_nat k) = Some (base, extra) /\ length x = extra /\ b = x ++ r /\ v = base + lsb x.
Proof.
  unfold extended. destruct (nth_error codes (Z.to_nat k)) as [[base extra]|]; [|discriminate].
  destruct (take_bits extra b) as [v' r'| |] eqn:E; try discriminate. intros [= <- <-].
  apply take_bits_got in E. destruct E as (x & Hx & -> & ->). exists base, extra, x. auto.
Qed.

Lemma stop_going {A} (g : got A) o k o' b' : stop g o k = Going o' b' -> exists a b, g = Got a b /\ k a b = Going o' b'.
Proof. destruct g; cbn; [eauto|discriminate|discriminate]. Qed.

Lemma elements_grow ll dl out b out' : elements ll dl out b out' -> exists l, out' = out ++ l.
Proof.
  induction 1 as [out b|out v b rest out' _ _ _ [l ->]|out k d b x b' x' l0 rest out' _ _ _ _ _ _ _ _ _ [l ->]];
    [exists []; now rewrite app_nil_r|eexists; now rewrite <- app_assoc..].
Qed.

Lemma symbols_complete ll dl n out b out' : elements ll dl out b out' -> zlen out' <= n ->
  forall fuel r, (length b <= length fuel)%nat ->
  symbols fuel (make_table ll) (make_table dl) (st n out) (b ++ r) = Going (st n out') r.
Proof.
  induction 1 as [out b Hw|out v b rest out' Hv Hw Hel IH|out k d b x b' x' l rest out' Hk Hw Hx Hd Hw' Hx' Hl Hr Hel IH];
    intros Hn fuel r Hf; (destruct fuel as [|y fuel]; [pose proof (codeword_nonempty _ _ _ Hw); rewrite ?app_length in Hf; cbn in Hf; lia|]);
    cbn [symbols length] in *; rewrite <- ?app_assoc; rewrite (decode_word _ _ _ _ Hw); cbn [stop].
  - reflexivity.
  - replace (Z.of_nat v <? 256) with true by lia. rewrite emit_st.
    destruct (elements_grow _ _ _ _ _ Hel) as [l ->]. rewrite !zlen_app in Hn. change (zlen [Z.of_nat v]) with 1 in Hn.
    pose proof (zlen_nonneg l). replace (n <=? zlen out) with false by lia. apply IH; [rewrite !zlen_app; exact Hn|].
    pose proof (codeword_nonempty _ _ _ Hw). rewrite app_length in Hf. lia.
  - replace (Z.of_nat (257 + k) <? 256) with false by lia. replace (Z.of_nat (257 + k) =? 256) with false by lia.
    destruct (length_codes_eq k Hk) as (E1 & E2 & E3).
    rewrite (extended_complete _ _ (length_base (Z.of_nat k)) (length_extra (Z.of_nat k)));
      [|replace (Z.to_nat (Z.of_nat (257 + k) - 257)) with k by lia; exact E1|exact Hx].
    cbn [stop]. rewrite (decode_word _ _ _ _ Hw'). cbn [stop].
    destruct (distance_codes_eq d Hd) as (F1 & F2 & F3).
    rewrite (extended_complete _ _ (distance_base (Z.of_nat d)) (distance_extra (Z.of_nat d)));
      [|rewrite Nat2Z.id; exact F1|exact Hx'].
    cbn [stop]. rewrite <- Hl. unfold zlen at 1. rewrite Nat2Z.id.
    destruct Hr as [Hr1 Hr2]. set (D := distance_base (Z.of_nat d) + lsb x') in *.
    replace (Z.to_nat (D - 1)) with (Z.to_nat D - 1)%nat by lia.
    destruct (elements_grow _ _ _ _ _ Hel) as [m Em].
    rewrite (copy_complete n (Z.to_nat D) l out).
    + apply IH; [exact Hn|]. pose proof (codeword_nonempty _ _ _ Hw). rewrite !app_length in Hf. lia.
    + unfold zlen in Hr1. lia.
    + exact Hr2.
    + subst out'. rewrite zlen_app in Hn. pose proof (zlen_nonneg m). lia.
Qed.

Lemma symbols_sound ll dl n : forall fuel out b o' r, zlen out <= n ->
  symbols fuel (make_table ll) (make_table dl) (st n out) b = Going o' r ->
  exists x out', b = x ++ r /\ o' = st n out' /\ zlen out' <= n /\ elements ll dl out x out'.
Proof.
  induction fuel as [|y fuel IH]; intros out b o' r Hn; cbn [symbols]; [discriminate|].
  intro H. apply stop_going in H. destruct H as (s & b1 & E & H). apply word_decoded in E. destruct E as (j & w & -> & -> & Hw).
  destruct (Z.ltb_spec (Z.of_nat j) 256) as [Hj|Hj].
  - rewrite emit_st in H. destruct (Z.leb_spec n (zlen out)); [discriminate|].
    apply IH in H; [|rewrite zlen_app; change (zlen [Z.of_nat j]) with 1; lia].
    destruct H as (x & out' & -> & -> & Hn' & Hel). exists (w ++ x), out'. rewrite <- app_assoc.
    repeat (split; [auto|]). apply (element_literal ll dl out j w x out'); [lia|exact Hw|exact Hel].
  - destruct (Z.eqb_spec (Z.of_nat j) 256) as [Hj'|Hj'].
    + injection H as <- <-. exists w, out. repeat (split; [auto|]). apply element_end. replace 256%nat with j by lia. exact Hw.
    + apply stop_going in H. destruct H as (len & b2 & E & H). apply extended_sound in E.
      destruct E as (base & extra & x & En & Hx & -> & ->).
      apply stop_going in H. destruct H as (s & b3 & E & H). apply word_decoded in E. destruct E as (d & w' & -> & -> & Hw').
      apply stop_going in H. destruct H as (dist & b4 & E & H). apply extended_sound in E.
      destruct E as (base' & extra' & x' & En' & Hx' & -> & ->).
      rewrite Nat2Z.id in En'.
      assert (Hk : exists k, j = (257 + k)%nat /\ (k <= 28)%nat).
      { exists (j - 257)%nat. split; [lia|]. assert (L : (Z.to_nat (Z.of_nat j - 257) < length length_codes)%nat) by (apply nth_error_Some; congruence).
        cbn [length length_codes] in L. lia. }
      destruct Hk as (k & -> & Hk). replace (Z.to_nat (Z.of_nat (257 + k) - 257)) with k in En by lia.
      assert (Hd : (d <= 29)%nat).
      { assert (L : (d < length distance_codes)%nat) by (apply nth_error_Some; congruence). cbn [length distance_codes] in L. lia. }
      destruct (length_codes_eq k Hk) as (E1 & E2 & E3). destruct (distance_codes_eq d Hd) as (F1 & F2 & F3).
      rewrite E1 in En. injection En as <- Ex. rewrite F1 in En'. injection En' as <- Fx.
      pose proof (lsb_range x) as R. pose proof (lsb_range x') as R'.
      set (D := distance_base (Z.of_nat d) + lsb x') in *. set (L := length_base (Z.of_nat k) + lsb x) in *.
      assert (HL3 : 3 <= L) by (unfold L; lia). assert (HD1 : 1 <= D) by (unfold D; lia).
      replace (Z.to_nat (D - 1)) with (Z.to_nat D - 1)%nat in H by lia.
      destruct (copy_back _ _ _ _) as [o1 b5|] eqn:Ec; [|discriminate].
      apply copy_sound in Ec; [|lia|exact Hn]. destruct Ec as (l & Hl & -> & -> & Hn1 & Hne & Hf).
      apply IH in H; [|exact Hn1]. destruct H as (z & out' & -> & -> & Hn' & Hel).
      exists (w ++ x ++ w' ++ x' ++ z), out'. rewrite <- !app_assoc. repeat (split; [auto|]).
      assert (HD : (Z.to_nat D <= length out)%nat) by (destruct Hne as [Hz|]; [lia|assumption]).
      eapply element_repeat; try eassumption.
      * unfold zlen. lia.
      * unfold zlen. lia.
      * fold L. unfold zlen. lia.
      * split; [fold D; unfold zlen; lia|exact (Hf HD)].
Qed.

(** ** Headers of blocks with their own codes *)
Lemma take_lengths_complete vs : forall order r, Forall (fun v => zlen v = 3) vs -> (length vs <= length order)%nat ->
  take_lengths order (length vs) (concat vs ++ r) = Got (combine order (map lsb vs)) r.
Proof.
  induction vs as [|v vs IH]; intros order r HF Hl; [destruct order; reflexivity|].
  inversion HF as [|? ? Hv HF']; subst. destruct order as [|k order]; [cbn in Hl; lia|].
  cbn [length take_lengths concat map combine]. rewrite <- app_assoc, (take_bits_len 3) by exact Hv.
  rewrite IH; [reflexivity|exact HF'|cbn in Hl; lia].
Qed.
Lemma take_lengths_sound n : forall order b l r, (n <= length order)%nat -> take_lengths order n b = Got l r ->
  exists vs, length vs = n /\ Forall (fun v => zlen v = 3) vs /\ b = concat vs ++ r /\ l = combine order (map lsb vs).
Proof.
  induction n as [|n IH]; intros order b l r Hn.
  - destruct order; (intros [= <- <-]; exists []; repeat split; constructor).
  - destruct order as [|k order]; [cbn in Hn; lia|]. cbn [take_lengths].
    destruct (take_bits 3 b) as [v b1| |] eqn:E; try discriminate. apply take_bits_got in E. destruct E as (x & Hx & -> & ->).
    destruct (take_lengths order n b1) as [l1 b2| |] eqn:E; try discriminate. intros [= <- <-].
    apply IH in E; [|cbn in Hn; lia]. destruct E as (vs & Hvs & HF & -> & ->). exists (x :: vs).
    cbn [length concat map combine]. rewrite <- app_assoc. repeat (split; [auto; congruence|]).
    split; [constructor; [unfold zlen; rewrite Hx; reflexivity|exact HF]|]. auto.
Qed.

Lemma length_of_nth order : NoDup order -> forall ws k s, nth_error order k = Some s ->
  length_of (combine order ws) s = nth k ws 0.
Proof.
  induction 1 as [|x order Hx _ IH]; intros ws k s Hk; [destruct k; discriminate|].
  destruct ws as [|w ws]; [destruct k; reflexivity|]. unfold length_of in *. cbn [combine find].
  destruct k as [|k]; cbn [nth_error] in Hk.
  - injection Hk as <-. now rewrite Z.eqb_refl.
  - destruct (Z.eqb_spec x s) as [->|_]; [exfalso; apply Hx; eapply nth_error_In; exact Hk|].
    cbn [nth]. apply IH. exact Hk.
Qed.
Definition cl_of (vs : list (list bool)) : list Z := length_lengths (combine length_order (map lsb vs)).
Lemma order_nodup : NoDup length_order.
Proof. repeat (constructor; [cbn; lia|]). constructor. Qed.
Lemma cl_ordered vs : Forall (fun v => zlen v = 3) vs -> ordered vs (cl_of vs).
Proof.
  intro HF. split; [reflexivity|]. split; [exact HF|]. intros k s Hk.
  assert (Hs : nth_error length_order k = Some (Z.of_nat s)).
  { change length_order with (map Z.of_nat symbol_order). rewrite nth_error_map, Hk. reflexivity. }
  assert (E : nth_error (cl_of vs) s = Some (length_of (combine length_order (map lsb vs)) (Z.of_nat s))).
  { unfold cl_of, length_lengths. rewrite nth_error_map.
    assert (In s symbol_order) as Hin by (eapply nth_error_In; exact Hk).
    cbn in Hin. repeat (destruct Hin as [<-|Hin]; [reflexivity|]). contradiction. }
  rewrite E. f_equal. rewrite (length_of_nth _ order_nodup _ _ _ Hs). change 0 with (lsb []). apply map_nth.
Qed.
Lemma ordered_unique vs cl cl' : ordered vs cl -> ordered vs cl' -> cl = cl'.
Proof.
  intros (L1 & _ & H1) (L2 & _ & H2). apply (nth_ext _ _ 0 0); [congruence|]. intros s Hs. rewrite L1 in Hs.
  assert (Hin : exists k, nth_error symbol_order k = Some s).
  { apply In_nth_error. cbn. lia. }
  destruct Hin as [k Hk]. specialize (H1 k s Hk). specialize (H2 k s Hk).
  apply (nth_error_nth _ _ 0) in H1, H2. congruence.
Qed.
Lemma ordered_ok vs cl : ordered vs cl -> lengths_ok cl.
Proof.
  intros (L & HF & H). apply Forall_forall. intros x Hx. apply In_nth_error in Hx. destruct Hx as [s Hs].
  assert (Hin : exists k, nth_error symbol_order k = Some s).
  { apply In_nth_error. assert (s < 19)%nat by (rewrite <- L; apply nth_error_Some; congruence). cbn. lia. }
  destruct Hin as [k Hk]. rewrite (H k s Hk) in Hs. injection Hs as <-.
  destruct (nth_in_or_default k vs []) as [Hin| ->]; [|cbn; lia].
  rewrite Forall_forall in HF. specialize (HF _ Hin). pose proof (lsb_range (nth k vs [])) as R. rewrite HF in R. lia.
Qed.

Lemma rev_repeat' {A} (x : A) k : rev (repeat x k) = repeat x k.
Proof.
  induction k as [|k IH]; [reflexivity|]. cbn [repeat rev]. rewrite IH. clear IH.
  induction k as [|k IH]; [reflexivity|]. cbn [repeat app]. now rewrite IH.
Qed.
Lemma runs_grow cl l b l' : runs cl l b l' -> exists m, l' = l ++ m /\ (m = [] -> b = []).
Proof.
  induction 1 as [l|l v b rest l' _ _ _ (m & -> & _)|l v b x rest l' _ _ _ (m & -> & _)|l b x rest l' _ _ _ (m & -> & _)|l b x rest l' _ _ _ (m & -> & _)].
  - exists []. rewrite app_nil_r. auto.
  - rewrite <- app_assoc. eexists. split; [reflexivity|]. discriminate.
  - pose proof (lsb_range x). replace (Z.to_nat (3 + lsb x)) with (S (Z.to_nat (2 + lsb x))) by lia.
    exists (repeat v (S (Z.to_nat (2 + lsb x))) ++ m). split; [now rewrite <- !app_assoc|]. cbn. discriminate.
  - pose proof (lsb_range x). replace (Z.to_nat (3 + lsb x)) with (S (Z.to_nat (2 + lsb x))) by lia.
    rewrite <- app_assoc. eexists. split; [reflexivity|]. cbn. discriminate.
  - pose proof (lsb_range x). replace (Z.to_nat (11 + lsb x)) with (S (Z.to_nat (10 + lsb x))) by lia.
    rewrite <- app_assoc. eexists. split; [reflexivity|]. cbn. discriminate.
Qed.
Lemma runs_ok cl l b l' : runs cl l b l' -> lengths_ok l -> lengths_ok l'.
Proof.
  unfold lengths_ok.
  assert (R : forall v k, 0 <= v <= 15 -> Forall (fun k => 0 <= k <= 15) (repeat v k)).
  { intros v k Hv. induction k; constructor; assumption. }
  induction 1 as [l|l v b rest l' Hv _ _ IH|l v b x rest l' _ _ _ IH|l b x rest l' _ _ _ IH|l b x rest l' _ _ _ IH];
    intro H; [exact H|apply IH..].
  - apply Forall_app. split; [exact H|]. constructor; [lia|constructor].
  - apply Forall_app in H. destruct H as [H1 H2]. rewrite !Forall_app. repeat split; [exact H1|exact H2|].
    apply R. now inversion H2.
  - apply Forall_app. split; [exact H|]. apply R. lia.
  - apply Forall_app. split; [exact H|]. apply R. lia.
Qed.

Lemma code_lengths_complete cl n l b l' : runs cl l b l' -> zlen l' = n -> forall fuel r, (length b <= length fuel)%nat ->
  code_lengths fuel (make_table cl) (n - zlen l) (rev l) (b ++ r) = Got l' r.
Proof.
  assert (S1 : forall l b x m rest l' n, runs cl (l ++ m) rest l' -> codeword cl x b -> zlen l' = n -> (1 <= length m)%nat ->
     n - zlen l =? 0 = false /\ n - zlen l <? 0 = false).
  { intros l1 b1 x m rest l2 n1 Hr _ <- Hm. destruct (runs_grow _ _ _ _ Hr) as (m' & -> & _). rewrite !zlen_app.
    pose proof (zlen_nonneg m'). unfold zlen in *. lia. }
  induction 1 as [l|l v b rest l' Hv Hw Hr IH|l v b x rest l' Hw Hx Hr IH|l b x rest l' Hw Hx Hr IH|l b x rest l' Hw Hx Hr IH];
    intros Hn fuel r Hf.
  - replace (n - zlen l) with 0 by lia. destruct fuel; cbn [code_lengths Z.eqb]; now rewrite rev_involutive.
  - destruct (S1 _ _ _ _ _ _ _ Hr Hw Hn ltac:(cbn; lia)) as [T1 T2].
    destruct fuel as [|y fuel]; [pose proof (codeword_nonempty _ _ _ Hw); rewrite app_length in Hf; cbn in Hf; lia|].
    cbn [code_lengths]. rewrite T1, T2, <- app_assoc, (decode_word _ _ _ _ Hw).
    replace (Z.of_nat v <? 16) with true by lia.
    specialize (IH Hn fuel r). rewrite rev_app_distr in IH. cbn [rev app] in IH.
    rewrite zlen_app in IH. change (zlen [Z.of_nat v]) with 1 in IH. replace (n - zlen l - 1) with (n - (zlen l + 1)) by lia.
    apply IH. pose proof (codeword_nonempty _ _ _ Hw). rewrite app_length in Hf. cbn in Hf. lia.
  - pose proof (lsb_range x) as R. rewrite Hx in R.
    assert (Hr' : runs cl ((l ++ [v]) ++ repeat v (Z.to_nat (3 + lsb x))) rest l') by (now rewrite <- app_assoc).
    destruct (S1 _ _ _ _ _ _ _ Hr' Hw Hn ltac:(rewrite repeat_length; lia)) as [T1 T2].
    destruct fuel as [|y fuel]; [pose proof (codeword_nonempty _ _ _ Hw); rewrite app_length in Hf; cbn in Hf; lia|].
    cbn [code_lengths]. rewrite T1, T2, <- !app_assoc, (decode_word _ _ _ _ Hw).
    change (Z.of_nat 16 <? 16) with false. change (Z.of_nat 16 =? 16) with true. cbv iota.
    rewrite rev_app_distr. cbn [rev app]. rewrite (take_bits_len 2) by exact Hx.
    specialize (IH Hn fuel r). replace (l ++ [v] ++ repeat v (Z.to_nat (3 + lsb x))) with ((l ++ [v]) ++ repeat v (Z.to_nat (3 + lsb x))) in IH by (now rewrite <- app_assoc).
    rewrite rev_app_distr, rev_repeat', rev_app_distr in IH. cbn [rev app] in IH.
    rewrite zlen_app in IH. unfold zlen at 2 in IH. rewrite repeat_length in IH.
    replace (n - (zlen (l ++ [v]) + Z.of_nat (Z.to_nat (3 + lsb x)))) with (n - zlen (l ++ [v]) - (3 + lsb x)) in IH by lia.
    apply IH. pose proof (codeword_nonempty _ _ _ Hw). rewrite !app_length in Hf. cbn in Hf. lia.
  - pose proof (lsb_range x) as R. rewrite Hx in R.
    destruct (S1 _ _ _ _ _ _ _ Hr Hw Hn ltac:(rewrite repeat_length; lia)) as [T1 T2].
    destruct fuel as [|y fuel]; [pose proof (codeword_nonempty _ _ _ Hw); rewrite app_length in Hf; cbn in Hf; lia|].
    cbn [code_lengths]. rewrite T1, T2, <- !app_assoc, (decode_word _ _ _ _ Hw).
    change (Z.of_nat 17 <? 16) with false. change (Z.of_nat 17 =? 16) with false. change (Z.of_nat 17 =? 17) with true. cbv iota.
    rewrite (take_bits_len 3) by exact Hx.
    specialize (IH Hn fuel r). rewrite rev_app_distr, rev_repeat' in IH.
    rewrite zlen_app in IH. unfold zlen at 2 in IH. rewrite repeat_length in IH.
    replace (n - (zlen l + Z.of_nat (Z.to_nat (3 + lsb x)))) with (n - zlen l - (3 + lsb x)) in IH by lia.
    apply IH. pose proof (codeword_nonempty _ _ _ Hw). rewrite !app_length in Hf. cbn in Hf. lia.
  - pose proof (lsb_range x) as R. rewrite Hx in R.
    destruct (S1 _ _ _ _ _ _ _ Hr Hw Hn ltac:(rewrite repeat_length; lia)) as [T1 T2].
    destruct fuel as [|y fuel]; [pose proof (codeword_nonempty _ _ _ Hw); rewrite app_length in Hf; cbn in Hf; lia|].
    cbn [code_lengths]. rewrite T1, T2, <- !app_assoc, (decode_word _ _ _ _ Hw).
    change (Z.of_nat 18 <? 16) with false. change (Z.of_nat 18 =? 16) with false. change (Z.of_nat 18 =? 17) with false. cbv iota.
    rewrite (take_bits_len 7) by exact Hx.
    specialize (IH Hn fuel r). rewrite rev_app_distr, rev_repeat' in IH.
    rewrite zlen_app in IH. unfold zlen at 2 in IH. rewrite repeat_length in IH.
    replace (n - (zlen l + Z.of_nat (Z.to_nat (11 + lsb x)))) with (n - zlen l - (11 + lsb x)) in IH by lia.
    apply IH. pose proof (codeword_nonempty _ _ _ Hw). rewrite !app_length in Hf. cbn in Hf. lia.
Qed.

Lemma code_lengths_sound cl : length cl = 19%nat -> forall fuel n acc b l' r,
  code_lengths fuel (make_table cl) n acc b = Got l' r ->
  exists x, b = x ++ r /\ runs cl (rev acc) x l' /\ zlen l' = n + zlen acc.
Proof.
  intro L. induction fuel as [|y fuel IH]; intros n acc b l' r; cbn [code_lengths].
  { destruct (Z.eqb_spec n 0) as [->|]; [|destruct (n <? 0); discriminate].
    intros [= <- <-]. exists []. split; [reflexivity|]. split; [constructor|]. rewrite zlen_rev. lia. }
  destruct (Z.eqb_spec n 0) as [->|].
  { intros [= <- <-]. exists []. split; [reflexivity|]. split; [constructor|]. rewrite zlen_rev. lia. }
  destruct (n <? 0); [discriminate|].
  destruct (decode_symbol _ _ _ _) as [s b1| |] eqn:E; try discriminate.
  apply word_decoded in E. destruct E as (j & w & -> & -> & Hw).
  assert (Hj : (j < 19)%nat) by (rewrite <- L; destruct Hw as (k & Hk & _); apply nth_error_Some; congruence).
  destruct (Z.ltb_spec (Z.of_nat j) 16) as [Hj16|Hj16].
  - intro H. apply IH in H. destruct H as (x & -> & Hr & Hz). exists (w ++ x). rewrite <- app_assoc. split; [reflexivity|].
    split; [|unfold zlen in *; cbn [length] in Hz; lia].
    cbn [rev] in Hr. apply (runs_length cl _ j); [lia|exact Hw|exact Hr].
  - assert (Hc : j = 16%nat \/ j = 17%nat \/ j = 18%nat) by lia. destruct Hc as [->|[->| ->]].
    + change (Z.of_nat 16 =? 16) with true. cbv iota. destruct acc as [|v acc]; [discriminate|].
      destruct (take_bits 2 b1) as [k b2| |] eqn:E; try discriminate. apply take_bits_got in E. destruct E as (x & Hx & -> & ->).
      pose proof (lsb_range x) as R. intro H. apply IH in H. destruct H as (z & -> & Hr & Hz).
      exists (w ++ x ++ z). rewrite <- !app_assoc. split; [reflexivity|]. split.
      * cbn [rev]. apply runs_previous; [exact Hw|unfold zlen; now rewrite Hx|].
        rewrite rev_app_distr, rev_repeat' in Hr. cbn [rev] in Hr. now rewrite <- app_assoc in Hr.
      * rewrite zlen_app in Hz. unfold zlen at 2 in Hz. rewrite repeat_length in Hz. lia.
    + change (Z.of_nat 17 =? 16) with false. change (Z.of_nat 17 =? 17) with true. cbv iota.
      destruct (take_bits 3 b1) as [k b2| |] eqn:E; try discriminate. apply take_bits_got in E. destruct E as (x & Hx & -> & ->).
      pose proof (lsb_range x) as R. intro H. apply IH in H. destruct H as (z & -> & Hr & Hz).
      exists (w ++ x ++ z). rewrite <- !app_assoc. split; [reflexivity|]. split.
      * apply runs_zeros; [exact Hw|unfold zlen; now rewrite Hx|]. now rewrite rev_app_distr, rev_repeat' in Hr.
      * rewrite zlen_app in Hz. unfold zlen at 2 in Hz. rewrite repeat_length in Hz. lia.
    + change (Z.of_nat 18 =? 16) with false. change (Z.of_nat 18 =? 17) with false. cbv iota.
      destruct (take_bits 7 b1) as [k b2| |] eqn:E; try discriminate. apply take_bits_got in E. destruct E as (x & Hx & -> & ->).
      pose proof (lsb_range x) as R. intro H. apply IH in H. destruct H as (z & -> & Hr & Hz).
      exists (w ++ x ++ z). rewrite <- !app_assoc. split; [reflexivity|]. split.
      * apply runs_many_zeros; [exact Hw|unfold zlen; now rewrite Hx|]. now rewrite rev_app_distr, rev_repeat' in Hr.
      * rewrite zlen_app in Hz. unfold zlen at 2 in Hz. rewrite repeat_length in Hz. lia.
Qed.

Lemma three_fields a b c : zlen a = 5 -> zlen b = 5 ->
  lsb (a ++ b ++ c) mod 32 = lsb a /\ lsb (a ++ b ++ c) / 32 mod 32 = lsb b /\ lsb (a ++ b ++ c) / 1024 = lsb c.
Proof.
  intros Ha Hb. rewrite !lsb_app, Ha, Hb. pose proof (lsb_range a) as Ra. pose proof (lsb_range b) as Rb. rewrite Ha in Ra. rewrite Hb in Rb.
  change (2 ^ 5) with 32 in *. Z.div_mod_to_equations. lia.
Qed.

Lemma dynamic_complete h ll dl r : code_header h ll dl ->
  dynamic_tables (h ++ r) = Got (make_table ll, make_table dl) r.
Proof.
  intros (b1 & b2 & b3 & vs & cl & rest & -> & H1 & H2 & H3 & Hll & Hll' & Hdl & Hdl' & Hvs & Ho & Hu & Hr & Hul & Hud & H256).
  unfold dynamic_tables.
  replace ((b1 ++ b2 ++ b3 ++ concat vs ++ rest) ++ r) with ((b1 ++ b2 ++ b3) ++ concat vs ++ rest ++ r) by (now rewrite <- !app_assoc).
  rewrite (take_bits_len 14) by (rewrite !zlen_app; lia).
  destruct (three_fields b1 b2 b3 H1 H2) as (-> & -> & ->). cbv zeta.
  replace ((286 <? lsb b1 + 257) || (30 <? lsb b2 + 1)) with false by lia.
  replace (Z.to_nat (lsb b3 + 4)) with (length vs) by (unfold zlen in Hvs; lia).
  assert (Hv19 : (length vs <= 19)%nat) by (pose proof (lsb_range b3) as R; rewrite H3 in R; unfold zlen in Hvs; lia).
  rewrite take_lengths_complete; [|apply Ho|exact Hv19].
  fold (cl_of vs). rewrite <- (ordered_unique vs cl (cl_of vs) Ho (cl_ordered vs (proj1 (proj2 Ho)))).
  rewrite (proj2 (table_ok_usable cl (ordered_ok _ _ Ho)) Hu). cbn [negb].
  pose proof (code_lengths_complete cl (lsb b1 + 257 + (lsb b2 + 1)) [] rest (ll ++ dl) Hr) as E.
  change (zlen []) with 0 in E. rewrite Z.sub_0_r in E. cbn [rev] in E.
  rewrite E; [|rewrite zlen_app; lia|rewrite app_length; lia].
  pose proof (runs_ok _ _ _ _ Hr (Forall_nil _)) as Hok. apply Forall_app in Hok. destruct Hok as [Hok1 Hok2].
  replace (Z.to_nat (lsb b1 + 257)) with (length ll) by (unfold zlen in Hll; lia).
  rewrite firstn_app, Nat.sub_diag, firstn_all, firstn_O, app_nil_r.
  rewrite skipn_app, Nat.sub_diag, skipn_all. cbn [app skipn].
  rewrite (proj2 (table_ok_usable ll Hok1) Hul), (proj2 (table_ok_usable dl Hok2) Hud).
  pose proof (lsb_range b1). rewrite app_nth1 by (unfold zlen in Hll; lia).
  destruct (Z.eqb_spec (nth 256 ll 0) 0); [contradiction|]. reflexivity.
Qed.

Lemma dynamic_sound b lit dist r : dynamic_tables b = Got (lit, dist) r ->
  exists h ll dl, b = h ++ r /\ code_header h ll dl /\ lit = make_table ll /\ dist = make_table dl.
Proof.
  unfold dynamic_tables. destruct (take_bits 14 b) as [v b1| |] eqn:E; try discriminate.
  apply take_bits_got in E. destruct E as (x & Hx & -> & ->).
  assert (Hs : exists x1 x2 x3, x = x1 ++ x2 ++ x3 /\ zlen x1 = 5 /\ zlen x2 = 5 /\ zlen x3 = 4).
  { exists (firstn 5 x), (firstn 5 (skipn 5 x)), (skipn 5 (skipn 5 x)). rewrite firstn_skipn, firstn_skipn. split; [reflexivity|].
    unfold zlen. rewrite !firstn_length, !skipn_length, Hx. cbn. lia. }
  destruct Hs as (x1 & x2 & x3 & -> & H1 & H2 & H3). destruct (three_fields x1 x2 x3 H1 H2) as (-> & -> & ->). cbv zeta.
  destruct ((286 <? lsb x1 + 257) || (30 <? lsb x2 + 1)) eqn:Hlim; [discriminate|].
  pose proof (lsb_range x1) as R1. pose proof (lsb_range x2) as R2. pose proof (lsb_range x3) as R3. rewrite H3 in R3.
  destruct (take_lengths _ _ _) as [l b2| |] eqn:E; try discriminate.
  apply take_lengths_sound in E; [|cbn [length length_order]; lia]. destruct E as (vs & Hvs & HF & -> & ->). fold (cl_of vs).
  pose proof (cl_ordered vs HF) as Ho.
  destruct (table_ok (make_table (cl_of vs))) eqn:Ht; [|discriminate]. cbn [negb].
  apply (table_ok_usable _ (ordered_ok _ _ Ho)) in Ht.
  destruct (code_lengths _ _ _ _ _) as [ls b3| |] eqn:E; try discriminate.
  apply (code_lengths_sound _ (proj1 Ho)) in E. destruct E as (z & -> & Hr & Hz). cbn [rev] in Hr. change (zlen []) with 0 in Hz.
  pose proof (runs_ok _ _ _ _ Hr (Forall_nil _)) as Hok. unfold lengths_ok in Hok.
  set (n := Z.to_nat (lsb x1 + 257)) in *.
  destruct (_ && _) eqn:Hand; [|discriminate]. intros [= <- <- <-].
  rewrite !andb_true_iff, negb_true_iff, Z.eqb_neq in Hand. destruct Hand as [[Ha1 Ha2] Ha3].
  assert (Hn : length (firstn n ls) = n) by (rewrite firstn_length; unfold zlen in Hz; unfold n; lia).
  rewrite <- (firstn_skipn n ls) in Hok. apply Forall_app in Hok. destruct Hok as [Hok1 Hok2].
  apply (table_ok_usable _ Hok1) in Ha1. apply (table_ok_usable _ Hok2) in Ha2.
  exists ((x1 ++ x2 ++ x3) ++ concat vs ++ z), (firstn n ls), (skipn n ls).
  split; [now rewrite <- !app_assoc|]. split; [|auto].
  exists x1, x2, x3, vs, (cl_of vs), z. rewrite <- !app_assoc.
  assert (Z1 : zlen (firstn n ls) = 257 + lsb x1) by (unfold zlen; rewrite Hn; unfold n; lia).
  assert (Z2 : zlen (skipn n ls) = 1 + lsb x2) by (unfold zlen in *; rewrite skipn_length; unfold n; lia).
  repeat (split; [first [reflexivity|assumption|lia]|]).
  split; [unfold zlen; lia|]. split; [exact Ho|]. split; [exact Ht|].
  rewrite firstn_skipn. split; [exact Hr|]. split; [exact Ha1|]. split; [exact Ha2|].
  rewrite <- (firstn_skipn n ls) in Ha3. rewrite app_nth1 in Ha3 by (unfold n in *; lia). exact Ha3.
Qed.

(** ** Blocks *)
Lemma wrote_st n out l : wrote (st n out) l = st n (out ++ l).
Proof. unfold wrote, st. cbn [z_out z_room]. rewrite rev_app_distr, zlen_app. f_equal. lia. Qed.

Lemma stored_bytes_sound n : forall fuel k out b o' r, 0 <= k -> zlen out <= n ->
  stored_bytes fuel k (st n out) b = Going o' r ->
  exists data x, b = x ++ r /\ packed data x /\ zlen data = k /\ o' = st n (out ++ data) /\ zlen (out ++ data) <= n.
Proof.
  assert (Z0 : forall out b o' r, zlen out <= n -> Going (st n out) b = Going o' r ->
    exists data x, b = x ++ r /\ packed data x /\ zlen data = 0 /\ o' = st n (out ++ data) /\ zlen (out ++ data) <= n).
  { intros out b o' r Hn [= <- <-]. exists [], []. rewrite app_nil_r. repeat (split; [auto; constructor|]). exact Hn. }
  induction fuel as [|y fuel IH]; intros k out b o' r Hk Hn; cbn [stored_bytes].
  - destruct (Z.leb_spec k 0); [|discriminate]. replace k with 0 by lia. now apply Z0.
  - destruct (Z.leb_spec k 0) as [Hk0|Hk0]; [replace k with 0 by lia; now apply Z0|]. intro H.
    apply stop_going in H. destruct H as (v & b1 & E & H). apply take_bits_got in E. destruct E as (x & Hx & -> & ->).
    rewrite emit_st in H. destruct (Z.leb_spec n (zlen out)); [discriminate|].
    apply IH in H; [|lia|rewrite zlen_app; change (zlen [lsb x]) with 1; lia].
    destruct H as (data & z & -> & Hp & Hz & -> & Hn'). exists (lsb x :: data), (x ++ z). rewrite <- app_assoc in *.
    split; [reflexivity|]. split; [now constructor|]. split; [unfold zlen in *; cbn [length]; lia|]. split; [now rewrite <- app_assoc|exact Hn'].
Qed.

Lemma align_len p pad rest : aligned p pad -> (p + zlen (pad ++ rest)) mod 8 = 0 ->
  skipn (length (pad ++ rest) mod 8) (pad ++ rest) = rest.
Proof.
  intros [H1 H2] H. assert (E : (length (pad ++ rest) mod 8 = length pad)%nat).
  { rewrite zlen_app in H. rewrite app_length. unfold zlen in *.
    assert (G : Z.of_nat (length rest) mod 8 = 0).
    { replace (Z.of_nat (length rest)) with (p + (Z.of_nat (length pad) + Z.of_nat (length rest)) - (p + Z.of_nat (length pad))) by lia.
      rewrite Zminus_mod, H, H2. reflexivity. }
    apply Nat2Z.inj. rewrite Nat2Z.inj_mod, Nat2Z.inj_add. change (Z.of_nat 8) with 8.
    rewrite Zplus_mod, G, Z.add_0_r, Z.mod_mod by lia. apply Z.mod_small. lia. }
  rewrite E, skipn_app, Nat.sub_diag, skipn_all. reflexivity.
Qed.
Lemma align_split p (b : list bool) : (p + zlen b) mod 8 = 0 -> 0 <= p ->
  exists pad, b = pad ++ skipn (length b mod 8) b /\ aligned p pad.
Proof.
  intros H Hp. exists (firstn (length b mod 8) b). rewrite firstn_skipn. split; [reflexivity|].
  assert (L : (length b mod 8 < 8)%nat) by (apply Nat.mod_upper_bound; lia).
  assert (M : (length b mod 8 <= length b)%nat) by (apply Nat.mod_le; lia).
  unfold aligned, zlen in *. rewrite firstn_length_le by exact M. split; [lia|].
  rewrite Nat2Z.inj_mod. change (Z.of_nat 8) with 8. now rewrite Z.add_mod_idemp_r by lia.
Qed.

Lemma stored_complete n p out pad b1 b2 data b r : aligned p pad -> zlen b1 = 16 -> zlen b2 = 16 ->
  lsb b1 = zlen data -> lsb b2 = 65535 - zlen data -> packed data b -> zlen (out ++ data) <= n ->
  (p + zlen ((pad ++ b1 ++ b2 ++ b) ++ r)) mod 8 = 0 ->
  stored_block (st n out) ((pad ++ b1 ++ b2 ++ b) ++ r) = Going (st n (out ++ data)) r.
Proof.
  intros Ha H1 H2 E1 E2 Hp Hn Hm. rewrite <- !app_assoc in *. unfold stored_block. rewrite (align_len p) by assumption.
  rewrite (take_bits_len 16) by exact H1. cbn [stop]. rewrite (take_bits_len 16) by exact H2. cbn [stop].
  rewrite E1, E2. replace (zlen data + (65535 - zlen data) =? 65535) with true by lia.
  destruct (packed_bits _ _ Hp) as [<- Hb]. rewrite stored_bytes_fit.
  - now rewrite wrote_st.
  - exact Hb.
  - rewrite app_length, bits_of_length. lia.
  - cbn [st z_room]. rewrite zlen_app in Hn. lia.
Qed.
Lemma stored_sound n p out b o' r : zlen out <= n -> 0 <= p -> (p + zlen b) mod 8 = 0 ->
  stored_block (st n out) b = Going o' r ->
  exists pad b1 b2 data x, b = (pad ++ b1 ++ b2 ++ x) ++ r /\ aligned p pad /\ zlen b1 = 16 /\ zlen b2 = 16 /\
    lsb b1 = zlen data /\ lsb b2 = 65535 - zlen data /\ packed data x /\ o' = st n (out ++ data) /\ zlen (out ++ data) <= n.
Proof.
  intros Hn Hp Hm. unfold stored_block. destruct (align_split p b Hm Hp) as (pad & E & Ha). intro H.
  apply stop_going in H. destruct H as (v1 & r1 & E1 & H). apply take_bits_got in E1. destruct E1 as (b1 & H1 & E1 & ->).
  apply stop_going in H. destruct H as (v2 & r2 & E2 & H). apply take_bits_got in E2. destruct E2 as (b2 & H2 & -> & ->).
  destruct (Z.eqb_spec (lsb b1 + lsb b2) 65535); [|discriminate].
  apply stored_bytes_sound in H; [|apply lsb_range|exact Hn]. destruct H as (data & x & -> & Hpk & Hz & -> & Hn').
  exists pad, b1, b2, data, x. split; [rewrite E, E1; now rewrite <- !app_assoc|]. unfold zlen at 1 2. rewrite H1, H2.
  repeat (split; [first [reflexivity|assumption|lia]|]). exact Hn'.
Qed.

Definition block_step (kind : Z) (o : zout) (b : list bool) : zstep :=
  if kind =? 0 then stored_block o b
  else if kind =? 1 then symbols b fixed_lit fixed_dist o b
  else if kind =? 2 then stop (dynamic_tables b) o (fun '(lit, dist) b => symbols b lit dist o b)
  else Stopped ZError o.
Lemma blocks_cons y fuel o x k1 k2 b : blocks (y :: fuel) o (x :: k1 :: k2 :: b) =
  match block_step (lsb [k1; k2]) o b with
  | Stopped s o => Stopped s o
  | Going o b => if x then Going o b else blocks fuel o b
  end.
Proof. destruct x; reflexivity. Qed.

Lemma block_complete p n out b out' : block p out b out' -> zlen out' <= n -> 0 <= p ->
  exists k1 k2 b', b = k1 :: k2 :: b' /\
    forall r, (p + zlen (b ++ r)) mod 8 = 0 -> block_step (lsb [k1; k2]) (st n out) (b' ++ r) = Going (st n out') r.
Proof.
  intros H Hn Hp. destruct H as [pad b1 b2 data b Ha H1 H2 E1 E2 Hpk|b out' Hel|ll dl h b out' Hh Hel].
  - exists false, false, (pad ++ b1 ++ b2 ++ b). split; [reflexivity|]. intros r Hm.
    unfold block_step. cbn [lsb Z.b2z Z.add Z.mul Z.eqb]. apply (stored_complete n (p + 2)); try assumption.
    cbn [app] in Hm. unfold zlen in *. cbn [length] in Hm. rewrite <- Hm. f_equal. lia.
  - exists true, false, b. split; [reflexivity|]. intros r _. unfold block_step. cbn [lsb Z.b2z Z.add Z.mul Z.eqb].
    change (symbols (b ++ r) (make_table fixed_lengths) (make_table fixed_distances) (st n out) (b ++ r) = Going (st n out') r).
    apply symbols_complete; [exact Hel|exact Hn|]. rewrite app_length. lia.
  - exists false, true, (h ++ b). split; [reflexivity|]. intros r _. unfold block_step. cbn [lsb Z.b2z Z.add Z.mul Z.eqb Pos.eqb].
    rewrite <- app_assoc, (dynamic_complete _ _ _ _ Hh). cbn [stop].
    apply symbols_complete; [exact Hel|exact Hn|]. rewrite app_length. lia.
Qed.
Lemma block_sound p n out k1 k2 b o' r : zlen out <= n -> 0 <= p -> (p + 2 + zlen b) mod 8 = 0 ->
  block_step (lsb [k1; k2]) (st n out) b = Going o' r ->
  exists x out', b = x ++ r /\ o' = st n out' /\ zlen out' <= n /\ block p out ([k1; k2] ++ x) out'.
Proof.
  intros Hn Hp Hm. unfold block_step. destruct k1, k2; cbn [lsb Z.b2z Z.add Z.mul Z.eqb Pos.add Pos.mul Pos.eqb].
  - discriminate.
  - intro H. apply (symbols_sound fixed_lengths fixed_distances) in H; [|exact Hn]. destruct H as (x & out' & -> & -> & Hn' & Hel).
    exists x, out'. repeat (split; [auto|]). now apply block_fixed.
  - intro H. apply stop_going in H. destruct H as ([lit dist] & b1 & E & H). apply dynamic_sound in E.
    destruct E as (h & ll & dl & -> & Hh & -> & ->). apply symbols_sound in H; [|exact Hn].
    destruct H as (x & out' & -> & -> & Hn' & Hel). exists (h ++ x), out'. rewrite <- app_assoc. repeat (split; [auto|]).
    eapply block_dynamic; eassumption.
  - intro H. apply (stored_sound n (p + 2)) in H; [|exact Hn|lia|exact Hm].
    destruct H as (pad & b1 & b2 & data & x & -> & Ha & H1 & H2 & E1 & E2 & Hpk & -> & Hn').
    exists (pad ++ b1 ++ b2 ++ x), (out ++ data). repeat (split; [auto|]). now apply block_stored.
Qed.

Lemma block_grow p out b out' : block p out b out' -> exists l, out' = out ++ l.
Proof. destruct 1 as [| |]; [eauto|eapply elements_grow; eassumption..]. Qed.
Lemma deflated_grow p out b out' : deflated p out b out' -> exists l, out' = out ++ l.
Proof.
  induction 1 as [pos out b out' Hb|pos out b mid rest out' Hb _ [l ->]]; [eapply block_grow; exact Hb|].
  destruct (block_grow _ _ _ _ Hb) as [m ->]. rewrite <- app_assoc. eauto.
Qed.

Lemma blocks_complete n p out b out' : deflated p out b out' -> zlen out' <= n -> 0 <= p ->
  forall fuel r, (length b <= length fuel)%nat -> (p + zlen (b ++ r)) mod 8 = 0 ->
  blocks fuel (st n out) (b ++ r) = Going (st n out') r.
Proof.
  induction 1 as [p out b out' Hb|p out b mid rest out' Hb Hd IH]; intros Hn Hp fuel r Hf Hm;
    (destruct fuel as [|y fuel]; [cbn in Hf; lia|]).
  - destruct (block_complete (p + 1) n out b out' Hb Hn ltac:(lia)) as (k1 & k2 & b' & -> & H).
    cbn [app]. rewrite blocks_cons, H; [reflexivity|]. cbn [app] in *. unfold zlen in *. cbn [length] in *. rewrite <- Hm. f_equal. lia.
  - assert (Hmid : zlen mid <= n).
    { destruct (deflated_grow _ _ _ _ Hd) as [l ->]. rewrite zlen_app in Hn. pose proof (zlen_nonneg l). lia. }
    destruct (block_complete (p + 1) n out b mid Hb Hmid ltac:(lia)) as (k1 & k2 & b' & -> & H).
    cbn [app]. rewrite blocks_cons. rewrite <- app_assoc, H.
    + apply IH; [exact Hn|unfold zlen; lia|cbn [app length] in Hf; rewrite app_length in Hf; lia|].
      cbn [app] in *. unfold zlen in *. cbn [length] in *. rewrite <- Hm. rewrite !app_length. f_equal. lia.
    + cbn [app] in *. unfold zlen in *. cbn [length] in *. rewrite <- Hm. rewrite <- app_assoc. f_equal. lia.
Qed.
Lemma blocks_sound n : forall fuel p out b o' r, zlen out <= n -> 0 <= p -> (p + zlen b) mod 8 = 0 ->
  blocks fuel (st n out) b = Going o' r ->
  exists x out', b = x ++ r /\ o' = st n out' /\ zlen out' <= n /\ deflated p out x out'.
Proof.
  induction fuel as [|y fuel IH]; intros p out b o' r Hn Hp Hm; [discriminate|].
  destruct b as [|x [|k1 [|k2 b]]]; try discriminate. rewrite blocks_cons.
  destruct (block_step _ _ _) as [o1 b1|] eqn:E; [|discriminate].
  assert (Hm' : (p + 1 + 2 + zlen b) mod 8 = 0) by (rewrite <- Hm; unfold zlen; cbn [length]; f_equal; lia).
  apply (block_sound (p + 1)) in E; [|exact Hn|lia|exact Hm'].
  destruct E as (z & mid & -> & -> & Hn1 & Hb). destruct x.
  - intros [= <- <-]. exists (true :: k1 :: k2 :: z), mid. repeat (split; [auto|]). now apply deflated_last.
  - intro H. apply (IH (p + 1 + zlen ([k1; k2] ++ z))) in H; [|exact Hn1|unfold zlen; lia|].
    + destruct H as (z' & out' & -> & -> & Hn' & Hd). exists ([false] ++ ([k1; k2] ++ z) ++ z'), out'.
      split; [cbn; now rewrite <- app_assoc|]. repeat (split; [auto|]). eapply deflated_more; eassumption.
    + rewrite <- Hm'. unfold zlen. rewrite !app_length. cbn [length]. f_equal. lia.
Qed.

(** ** Streams *)
Lemma bits_of_split body a c q : bits_of body = a ++ c -> length a = (8 * q)%nat ->
  a = bits_of (firstn q body) /\ c = bits_of (skipn q body).
Proof.
  intros E H. pose proof (f_equal (@length _) E) as L. rewrite bits_of_length, app_length in L.
  assert (F : length (firstn q body) = q) by (rewrite firstn_length; lia).
  rewrite <- (firstn_skipn q body), bits_of_app in E.
  assert (La : length (bits_of (firstn q body)) = length a) by (rewrite bits_of_length, F; lia).
  split.
  - apply (f_equal (firstn (length a))) in E. rewrite <- La in E at 1. rewrite !firstn_app, !Nat.sub_diag, !firstn_O, !app_nil_r in E.
    rewrite !firstn_all in E. congruence.
  - apply (f_equal (skipn (length a))) in E. rewrite <- La in E at 1. rewrite !skipn_app, !Nat.sub_diag, !skipn_all in E. cbn in E. congruence.
Qed.
Lemma checksum_sound l v r : is_bytes l -> take_checksum (bits_of l) = Got v r ->
  exists rest, l = be32 v ++ rest.
Proof.
  intros Hl H.
  assert (L : (4 <= length l)%nat).
  { unfold take_checksum in H. pose proof (skip_rest [] l ltac:(cbn; lia)) as Hk. cbn [app] in Hk. rewrite Hk in H.
    destruct (take_bits 32 (bits_of l)) as [u r'| |] eqn:E; try discriminate. apply take_bits_got in E.
    destruct E as (x & Hx & E & _). apply (f_equal (@length _)) in E. rewrite bits_of_length, app_length in E. lia. }
  destruct l as [|x0 [|x1 [|x2 [|x3 l]]]]; cbn [length] in L; try lia.
  inversion Hl as [|? ? B0 Hl1]; subst. inversion Hl1 as [|? ? B1 Hl2]; subst. inversion Hl2 as [|? ? B2 Hl3]; subst.
  inversion Hl3 as [|? ? B3 Hl4]; subst. unfold is_byte in *.
  assert (E : be32 (x3 + 256 * (x2 + 256 * (x1 + 256 * x0))) = [x0; x1; x2; x3]).
  { unfold be32. cbn [le].
    assert (Hd : forall a b, 0 <= a < 256 -> (a + 256 * b) mod 256 = a /\ (a + 256 * b) / 256 = b).
    { intros a b Ha. rewrite Z.mul_comm, Z.mod_add, Z.div_add by lia. rewrite Z.mod_small, Z.div_small by lia. lia. }
    rewrite !(proj1 (Hd x3 _ B3)), !(proj2 (Hd x3 _ B3)), !(proj1 (Hd x2 _ B2)), !(proj2 (Hd x2 _ B2)),
      !(proj1 (Hd x1 _ B1)), !(proj2 (Hd x1 _ B1)). rewrite Z.mod_small by exact B0. reflexivity. }
  change (x0 :: x1 :: x2 :: x3 :: l) with ([x0; x1; x2; x3] ++ l) in H. rewrite <- E in H.
  rewrite take_checksum_eq in H by lia. injection H as <- _. exists l. rewrite E. reflexivity.
Qed.

Lemma finish_going n w b : finish (Going (st n w) b) =
  match take_checksum b with
  | Got v _ => (if v =? adler w then ZStreamEnd else ZError, w)
  | Short => (ZBufError, w)
  | Bad => (ZError, w)
  end.
Proof. cbn [finish st z_out]. rewrite rev_append_rev, app_nil_r, rev_involutive, adler32_adler. reflexivity. Qed.
Lemma st_start n : {| z_out := []; z_room := n |} = st n [].
Proof. unfold st. change (zlen []) with 0. now rewrite Z.sub_0_r. Qed.

(** Only the end of the stream is reported as such. *)
Definition unfinished (r : zstep) : Prop := match r with Stopped s _ => s <> ZStreamEnd | Going _ _ => True end.
Lemma stop_never {A} (g : got A) o k : (forall a b, unfinished (k a b)) -> unfinished (stop g o k).
Proof. destruct g; cbn; [auto|discriminate|discriminate]. Qed.
Lemma copy_never k d : forall o b, unfinished (copy_back k d o b).
Proof.
  induction k as [|k IH]; intros o b; cbn [copy_back]; [exact I|]. destruct (nth_error _ _); [|discriminate].
  destruct (emit _ _); [apply IH|discriminate].
Qed.
Lemma symbols_never fuel lit dist : forall o b, unfinished (symbols fuel lit dist o b).
Proof.
  induction fuel as [|y fuel IH]; intros o b; cbn [symbols]; [discriminate|]. apply stop_never. intros s b1.
  destruct (s <? 256); [destruct (emit _ _); [apply IH|discriminate]|]. destruct (s =? 256); [exact I|].
  do 3 (apply stop_never; intros). pose proof (copy_never (Z.to_nat a) (Z.to_nat (a1 - 1)) o b3) as G.
  destruct (copy_back _ _ _ _); [apply IH|exact G].
Qed.
Lemma stored_never fuel : forall k o b, unfinished (stored_bytes fuel k o b).
Proof.
  induction fuel as [|y fuel IH]; intros k o b; cbn [stored_bytes]; (destruct (k <=? 0); [exact I|]); [discriminate|].
  apply stop_never. intros v b1. destruct (emit _ _); [apply IH|discriminate].
Qed.
Lemma step_never kind o b : unfinished (block_step kind o b).
Proof.
  unfold block_step. destruct (kind =? 0).
  - unfold stored_block. do 2 (apply stop_never; intros). destruct (_ =? _); [apply stored_never|discriminate].
  - destruct (kind =? 1); [apply symbols_never|]. destruct (kind =? 2); [|discriminate].
    apply stop_never. intros [lit dist] b1. apply symbols_never.
Qed.
Lemma blocks_never fuel : forall o b, unfinished (blocks fuel o b).
Proof.
  induction fuel as [|y fuel IH]; intros o b; [discriminate|].
  destruct b as [|x [|k1 [|k2 b]]]; try (cbn; discriminate). rewrite blocks_cons.
  pose proof (step_never (lsb [k1; k2]) o b) as G. destruct (block_step _ _ _); [|exact G]. destruct x; [exact I|apply IH].
Qed.

Theorem inflate_complete stream w rest n : zlib_stream stream w -> zlen w <= n ->
  inflate_zlib (stream ++ rest) n = (ZStreamEnd, w).
Proof.
  intros (cmf & flg & body & b & pad & -> & Hc & Hf & H1 & H2 & H3 & H4 & Hd & Hpad & Hpk) Hn.
  rewrite <- !app_assoc. cbn [app inflate_zlib]. rewrite H1, H3.
  replace (7 <? cmf / 16) with false by lia. replace (Z.odd (flg / 32)) with false by (rewrite Zmod_odd in H4; destruct (Z.odd (flg / 32)); [discriminate|reflexivity]).
  cbn [Z.eqb Pos.eqb negb orb]. cbv zeta. rewrite st_start.
  destruct (packed_bits _ _ Hpk) as [Eb _].
  assert (E : bits_of (body ++ be32 (adler w) ++ rest) = b ++ pad ++ bits_of (be32 (adler w) ++ rest)).
  { rewrite bits_of_app, Eb. now rewrite <- app_assoc. }
  rewrite E, (blocks_complete n 0 [] b w Hd Hn ltac:(lia)).
  - rewrite finish_going. unfold take_checksum. rewrite skip_rest by (unfold zlen in Hpad; lia).
    pose proof (take_checksum_eq (adler w) rest (adler_range w)) as T. unfold take_checksum in T.
    pose proof (skip_rest [] (be32 (adler w) ++ rest) ltac:(cbn; lia)) as Hk. cbn [app] in Hk. rewrite Hk in T.
    destruct (take_bits 32 _) as [v r| |]; try discriminate. injection T as T _. rewrite T, Z.eqb_refl. reflexivity.
  - rewrite app_length. lia.
  - rewrite <- E. unfold zlen. rewrite bits_of_length, Nat2Z.inj_mul. cbn [Z.add]. rewrite Z.mul_comm. apply Z.mod_mul. lia.
Qed.

Theorem inflate_sound data n w : is_bytes data -> 0 <= n -> inflate_zlib data n = (ZStreamEnd, w) ->
  zlen w <= n /\ exists stream rest, data = stream ++ rest /\ zlib_stream stream w.
Proof.
  intros Hb Hn. unfold inflate_zlib. destruct data as [|cmf [|flg body]]; try discriminate.
  destruct (_ || _ || _ || _) eqn:Eh; [discriminate|]. rewrite !orb_false_iff, !negb_false_iff, !Z.eqb_eq in Eh.
  destruct Eh as [[[H1 H2] H3] H4]. inversion Hb as [|? ? B1 Hb1]; subst. inversion Hb1 as [|? ? B2 Hbody]; subst.
  cbv zeta. rewrite st_start. destruct (blocks _ _ _) as [o r|s o] eqn:E.
  2: { cbn [finish]. intros [= -> _]. exfalso. pose proof (blocks_never (bits_of body) (st n []) (bits_of body)) as G. rewrite E in G. now apply G. }
  apply (blocks_sound n _ 0) in E; [|cbn; lia|lia|].
  2: { unfold zlen. rewrite bits_of_length, Nat2Z.inj_mul. cbn [Z.add]. rewrite Z.mul_comm. apply Z.mod_mul. lia. }
  destruct E as (b & out' & Eb & -> & Hn' & Hd). rewrite finish_going.
  assert (Hm : (zlen b + zlen r) mod 8 = 0).
  { rewrite <- zlen_app, <- Eb. unfold zlen. rewrite bits_of_length, Nat2Z.inj_mul. rewrite Z.mul_comm. apply Z.mod_mul. lia. }
  destruct (align_split (zlen b) r Hm ltac:(unfold zlen; lia)) as (pad & Ep & [Ha1 Ha2]).
  set (tail := skipn (length r mod 8) r) in *.
  assert (Hq : exists q, length (b ++ pad) = (8 * q)%nat).
  { exists (Z.to_nat ((zlen b + zlen pad) / 8)). rewrite app_length. unfold zlen in *. Z.div_mod_to_equations. lia. }
  destruct Hq as [q Hq]. rewrite Ep, app_assoc in Eb. apply (bits_of_split _ _ _ q) in Eb; [|exact Hq]. destruct Eb as [Eb1 Eb2].
  assert (T : take_checksum r = take_checksum (bits_of (skipn q body))).
  { unfold take_checksum. fold tail. rewrite Eb2.
    pose proof (skip_rest [] (skipn q body) ltac:(cbn; lia)) as Hk. cbn [app] in Hk. rewrite Hk. reflexivity. }
  rewrite T. assert (Hs : is_bytes (skipn q body)).
  { unfold is_bytes in *. rewrite <- (firstn_skipn q body) in Hbody. apply Forall_app in Hbody. apply Hbody. }
  destruct (take_checksum (bits_of (skipn q body))) as [v r'| |] eqn:Ec; try discriminate.
  destruct (Z.eqb_spec v (adler out')) as [->|]; [|discriminate]. intros [= <-].
  split; [exact Hn'|]. apply checksum_sound in Ec; [|exact Hs]. destruct Ec as [rest Er].
  exists ([cmf; flg] ++ firstn q body ++ be32 (adler out')), rest. split.
  - rewrite <- !app_assoc, <- Er, firstn_skipn. reflexivity.
  - exists cmf, flg, (firstn q body), b, pad. split; [reflexivity|]. repeat (split; [assumption|]).
    split; [lia|]. split; [exact H3|]. split; [rewrite Zmod_odd, H4; reflexivity|]. split; [exact Hd|]. split; [exact Ha1|].
    rewrite Eb1. apply bits_packed. rewrite <- (firstn_skipn q body) in Hbody. apply Forall_app in Hbody. apply Hbody.
Qed.

Theorem inflate_reads_zlib : reads_zlib inflate_zlib.
Proof.
  intros data n w Hb Hn. split; [now apply inflate_sound|]. intros (Hw & stream & rest & -> & Hs). now apply inflate_complete.
Qed.
