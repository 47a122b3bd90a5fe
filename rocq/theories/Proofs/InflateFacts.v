(** The decompressor of Model/Inflate.v: its contract, and stored blocks. *)
From Verif.Model Require Import Loader Inflate.
From Verif.Spec Require Import Bytes ImageSpec Zlib.
From Verif.Proofs Require Import ParseLib.

(** ** The contract *)
Definition within (n : Z) (o : zout) : Prop :=
  zlen (z_out o) + z_room o = n /\ 0 <= z_room o /\ is_bytes (z_out o).

Lemma emit_within n o v o' : within n o -> is_byte v -> emit o v = Some o' -> within n o'.
Proof.
  unfold emit, within, zlen. intros (H1 & H2 & H3) Hv.
  destruct (Z.leb_spec (z_room o) 0); [discriminate|]. intros [= <-]. cbn [z_out z_room length].
  split; [lia|]. split; [lia|]. now constructor.
Qed.

Definition step_within (n : Z) (r : zstep) : Prop :=
  match r with Going o _ | Stopped _ o => within n o end.

Lemma stop_within {A} n (g : got A) o k : within n o ->
  (forall a b, g = Got a b -> step_within n (k a b)) -> step_within n (stop g o k).
Proof. destruct g; cbn; auto. Qed.

Lemma take_bits_range k : forall b v r, take_bits k b = Got v r -> 0 <= v < 2 ^ Z.of_nat k.
Proof.
  induction k as [|k IH]; intros b v r; cbn [take_bits].
  - intros [= <- <-]. cbn. lia.
  - destruct b as [|x b]; [discriminate|].
    destruct (take_bits k b) as [v' r'| |] eqn:E; try discriminate. intros [= <- <-].
    apply IH in E. rewrite Nat2Z.inj_succ, Z.pow_succ_r by lia. destruct x; cbn [Z.b2z]; lia.
Qed.

Lemma copy_within n k d : forall o b, within n o -> step_within n (copy_back k d o b).
Proof.
  induction k as [|k IH]; intros o b H; cbn [copy_back]; [exact H|].
  destruct (nth_error (z_out o) d) as [v|] eqn:E; [|exact H].
  destruct (emit o v) as [o'|] eqn:Em; [|exact H].
  apply IH. eapply emit_within; [exact H| |exact Em].
  destruct H as (_ & _ & H). apply (proj1 (Forall_forall _ _) H). eapply nth_error_In; exact E.
Qed.

Definition table_nonneg (t : code_table) : Prop := Forall (Forall (fun s => 0 <= s)) t.

Lemma decode_nonneg t : table_nonneg t -> forall code first b s r,
  decode_symbol t code first b = Got s r -> 0 <= s.
Proof.
  induction 1 as [|l t Hl Ht IH]; intros code first b s r; cbn [decode_symbol]; [discriminate|].
  destruct b as [|x b]; [discriminate|].
  destruct (if _ <? _ then None else _) as [v|] eqn:E.
  - intros [= <- <-]. destruct (_ <? _); [discriminate|].
    apply nth_error_In in E. now apply (proj1 (Forall_forall _ _) Hl).
  - apply IH.
Qed.

Lemma symbols_within n fuel lit dist : table_nonneg lit -> forall o b, within n o ->
  step_within n (symbols fuel lit dist o b).
Proof.
  intros Hl. induction fuel as [|x fuel IH]; intros o b H; cbn [symbols]; [exact H|].
  apply stop_within; [exact H|]. intros s b1 Es.
  destruct (Z.ltb_spec s 256) as [Hs|Hs].
  - destruct (emit o s) as [o'|] eqn:E; [|exact H].
    apply IH. eapply emit_within; [exact H| |exact E].
    split; [|lia]. eapply decode_nonneg; eassumption.
  - destruct (s =? 256); [exact H|].
    apply stop_within; [exact H|]. intros k b2 _.
    apply stop_within; [exact H|]. intros d b3 _.
    apply stop_within; [exact H|]. intros d' b4 _.
    pose proof (copy_within n (Z.to_nat k) (Z.to_nat (d' - 1)) o b4 H) as Hc.
    destruct (copy_back _ _ _ _) as [o' b'|s' o']; [apply IH, Hc|exact Hc].
Qed.

Lemma enumerate_nonneg {A} (l : list A) x : In x (enumerate l) -> 0 <= fst x.
Proof.
  unfold enumerate. intros H. destruct x as [k a]. apply in_combine_l in H. cbn.
  apply in_map_iff in H as (i & <- & _). lia.
Qed.

Lemma make_table_nonneg ls : table_nonneg (make_table ls).
Proof.
  unfold table_nonneg, make_table. apply Forall_forall. intros l Hl.
  apply in_map_iff in Hl as (k & <- & _). apply Forall_forall. intros s Hs.
  apply in_map_iff in Hs as (x & <- & Hx). apply filter_In in Hx as [Hx _].
  now apply enumerate_nonneg in Hx.
Qed.

Lemma stored_within n fuel : forall k o b, within n o -> step_within n (stored_bytes fuel k o b).
Proof.
  induction fuel as [|x fuel IH]; intros k o b H; cbn [stored_bytes].
  - destruct (k <=? 0); exact H.
  - destruct (k <=? 0); [exact H|]. apply stop_within; [exact H|]. intros v b1 Ev.
    destruct (emit o v) as [o'|] eqn:E; [|exact H].
    apply IH. eapply emit_within; [exact H| |exact E].
    apply take_bits_range in Ev. exact Ev.
Qed.

Lemma dynamic_nonneg b lit dist r : dynamic_tables b = Got (lit, dist) r ->
  table_nonneg lit.
Proof.
  unfold dynamic_tables. destruct (take_bits 14 b) as [v b1| |]; try discriminate.
  destruct (_ || _); [discriminate|].
  destruct (take_lengths _ _ _) as [l b2| |]; try discriminate.
  destruct (negb (table_ok _)); [discriminate|].
  destruct (code_lengths _ _ _ _ _) as [ls b3| |]; try discriminate.
  destruct (_ && _); [|discriminate]. intros [= <- <- <-]. apply make_table_nonneg.
Qed.

Lemma blocks_within n fuel : forall o b, within n o -> step_within n (blocks fuel o b).
Proof.
  induction fuel as [|x fuel IH]; intros o b H; cbn [blocks]; [exact H|].
  apply stop_within; [exact H|]. intros final b1 _.
  apply stop_within; [exact H|]. intros kind b2 _. cbv zeta.
  match goal with |- step_within n (match ?r with _ => _ end) =>
    assert (Hr : step_within n r) end.
  { destruct (kind =? 0).
    - unfold stored_block. apply stop_within; [exact H|]. intros k b3 _.
      apply stop_within; [exact H|]. intros m b4 _.
      destruct (_ =? _); [now apply stored_within|exact H].
    - destruct (kind =? 1); [apply symbols_within; [apply make_table_nonneg|exact H]|].
      destruct (kind =? 2); [|exact H].
      apply stop_within; [exact H|]. intros [lit dist] b3 Et. apply symbols_within; [|exact H].
      eapply dynamic_nonneg; exact Et. }
  destruct (if kind =? 0 then _ else _) as [o' b'|s o']; [|exact Hr].
  destruct (final =? 1); [exact Hr|now apply IH].
Qed.

Theorem inflate_zlib_ok : inflate_ok inflate_zlib.
Proof.
  intros data n Hn. unfold inflate_zlib.
  assert (H0 : zlen (@nil Z) <= n /\ is_bytes []) by (split; [exact Hn|constructor]).
  destruct data as [|cmf [|flg body]]; [exact H0|exact H0|].
  destruct (_ || _); [exact H0|].
  assert (Hw : within n {| z_out := []; z_room := n |}).
  { unfold within, zlen. cbn. split; [lia|]. split; [exact Hn|constructor]. }
  pose proof (blocks_within n (bits_of body) _ (bits_of body) Hw) as H.
  assert (Hf : forall o, within n o -> zlen (rev_append (z_out o) []) <= n /\
            is_bytes (rev_append (z_out o) [])).
  { intros o (H1 & H2 & H3). rewrite rev_append_rev, app_nil_r. unfold zlen in *.
    rewrite rev_length. split; [lia|]. now apply Forall_rev. }
  cbv zeta. destruct (blocks _ _ _) as [o b|s o]; cbn [finish step_within] in *.
  - destruct (take_checksum b) as [v r| |]; apply Hf, H.
  - apply Hf, H.
Qed.

(** ** Stored blocks *)
Lemma byte_bits_length k : forall v, length (byte_bits k v) = k.
Proof. induction k; intros v; cbn; congruence. Qed.

Lemma take_byte_bits k : forall v r, take_bits k (byte_bits k v ++ r) = Got (v mod 2 ^ Z.of_nat k) r.
Proof.
  induction k as [|k IH]; intros v r.
  - cbn. now rewrite Z.mod_1_r.
  - cbn [byte_bits app take_bits]. rewrite IH. f_equal.
    rewrite Nat2Z.inj_succ, Z.pow_succ_r, Z.rem_mul_r by lia.
    rewrite Zmod_odd. now destruct (Z.odd v).
Qed.

Lemma byte_bits_split a b : forall v,
  byte_bits (a + b) v = byte_bits a v ++ byte_bits b (v / 2 ^ Z.of_nat a).
Proof.
  induction a as [|a IH]; intros v.
  - cbn. now rewrite Z.div_1_r.
  - cbn [Nat.add byte_bits app]. rewrite IH. do 3 f_equal.
    rewrite Nat2Z.inj_succ, Z.pow_succ_r by lia. rewrite Z.div_div by lia. reflexivity.
Qed.

Lemma byte_bits_mod k : forall v m, Z.of_nat k <= m -> byte_bits k (v mod 2 ^ m) = byte_bits k v.
Proof.
  induction k as [|k IH]; intros v m H; [reflexivity|]. cbn [byte_bits].
  replace m with (Z.succ (m - 1)) by lia. rewrite Z.pow_succ_r by lia.
  rewrite Z.rem_mul_r by lia. f_equal.
  - rewrite Z.odd_add_mul_2. rewrite Zmod_odd. now destruct (Z.odd v).
  - rewrite (Z.mul_comm 2), Z.div_add by lia. rewrite Zmod_odd.
    replace ((if Z.odd v then 1 else 0) / 2) with 0 by (now destruct (Z.odd v)).
    rewrite Z.add_0_l. apply IH. lia.
Qed.

Lemma bits_of_app a b : bits_of (a ++ b) = bits_of a ++ bits_of b.
Proof. apply flat_map_app. Qed.

Lemma bits_of_length l : length (bits_of l) = (8 * length l)%nat.
Proof.
  induction l as [|x l IH]; [reflexivity|].
  change (bits_of (x :: l)) with (byte_bits 8 x ++ bits_of l).
  rewrite app_length, byte_bits_length, IH. cbn [length]. lia.
Qed.

Lemma bits_of_le n : forall v, bits_of (le n v) = byte_bits (8 * n) v.
Proof.
  induction n as [|n IH]; intros v; [reflexivity|].
  replace (8 * S n)%nat with (8 + 8 * n)%nat by lia. rewrite byte_bits_split.
  cbn [le]. change (bits_of (v mod 256 :: le n (v / 256)))
    with (byte_bits 8 (v mod 256) ++ bits_of (le n (v / 256))).
  rewrite IH. f_equal. apply (byte_bits_mod 8 v 8). lia.
Qed.

Lemma take_le n v r : 0 <= v < 256 ^ Z.of_nat n -> take_bits (8 * n) (bits_of (le n v) ++ r) = Got v r.
Proof.
  intros H. rewrite bits_of_le, take_byte_bits. f_equal. apply Z.mod_small.
  replace (2 ^ Z.of_nat (8 * n)) with (256 ^ Z.of_nat n); [exact H|].
  rewrite Nat2Z.inj_mul, Z.pow_mul_r by lia. reflexivity.
Qed.

Lemma take_byte x l r : is_byte x -> take_bits 8 (bits_of (x :: l) ++ r) = Got x (bits_of l ++ r).
Proof.
  intros H. change (bits_of (x :: l)) with (byte_bits 8 x ++ bits_of l).
  rewrite <- app_assoc, take_byte_bits. f_equal. apply Z.mod_small, H.
Qed.

Definition wrote (o : zout) (l : bytes) : zout :=
  {| z_out := rev l ++ z_out o; z_room := z_room o - zlen l |}.

Lemma stored_bytes_fit l : forall fuel o r, is_bytes l -> (length l <= length fuel)%nat ->
  zlen l <= z_room o -> stored_bytes fuel (zlen l) o (bits_of l ++ r) = Going (wrote o l) r.
Proof.
  induction l as [|x l IH]; intros fuel o r Hb Hf Hr.
  - destruct o as [out room]. unfold wrote, zlen. cbn [rev app length z_out z_room Z.of_nat].
    rewrite Z.sub_0_r. destruct fuel; reflexivity.
  - inversion Hb as [|? ? Hx Hl]; subst. destruct fuel as [|y fuel]; [cbn in Hf; lia|].
    cbn [stored_bytes]. unfold zlen in *. cbn [length] in *.
    destruct (Z.leb_spec (Z.of_nat (S (length l))) 0); [lia|].
    rewrite take_byte by exact Hx. cbn [stop]. unfold emit.
    destruct (Z.leb_spec (z_room o) 0); [lia|].
    replace (Z.of_nat (S (length l)) - 1) with (Z.of_nat (length l)) by lia.
    rewrite IH; [|exact Hl|lia|cbn [z_room]; lia].
    unfold wrote, zlen. cbn [z_out z_room rev length]. rewrite <- app_assoc. do 2 f_equal. lia.
Qed.

Lemma stored_bytes_full l : forall fuel o r, is_bytes l -> (length l <= length fuel)%nat ->
  0 <= z_room o < zlen l ->
  stored_bytes fuel (zlen l) o (bits_of l ++ r) =
    Stopped ZBufError (wrote o (firstn (Z.to_nat (z_room o)) l)).
Proof.
  induction l as [|x l IH]; intros fuel o r Hb Hf Hr; unfold zlen in *; [cbn in Hr; lia|].
  inversion Hb as [|? ? Hx Hl]; subst. destruct fuel as [|y fuel]; [cbn in Hf; lia|].
  cbn [stored_bytes length] in *.
  destruct (Z.leb_spec (Z.of_nat (S (length l))) 0); [lia|].
  rewrite take_byte by exact Hx. cbn [stop]. unfold emit.
  destruct (Z.leb_spec (z_room o) 0).
  - replace (z_room o) with 0 by lia. destruct o as [out room].
    unfold wrote, zlen. cbn in *. now replace room with 0 by lia.
  - replace (Z.of_nat (S (length l)) - 1) with (Z.of_nat (length l)) by lia.
    rewrite IH; [|exact Hl|lia|cbn [z_room]; lia]. cbn [z_room].
    replace (Z.to_nat (z_room o)) with (S (Z.to_nat (z_room o - 1))) by lia.
    unfold wrote, zlen. cbn [z_out z_room rev firstn length]. rewrite <- app_assoc. do 2 f_equal. lia.
Qed.

Lemma skip_rest (a : list bool) l : (length a < 8)%nat ->
  skipn (length (a ++ bits_of l) mod 8) (a ++ bits_of l) = bits_of l.
Proof.
  intros H. rewrite app_length, bits_of_length, Nat.mul_comm, Nat.mod_add, Nat.mod_small by lia.
  rewrite skipn_app, skipn_all, Nat.sub_diag. reflexivity.
Qed.

Definition stored_header (x : bytes) : bytes := le 2 (zlen x) ++ le 2 (65535 - zlen x).

Lemma stored_block_eq a x l o : (length a < 8)%nat -> zlen x <= 65535 ->
  stored_block o (a ++ bits_of (stored_header x ++ x ++ l)) =
    stored_bytes (bits_of (x ++ l)) (zlen x) o (bits_of x ++ bits_of l).
Proof.
  intros Ha Hx. unfold stored_block. rewrite skip_rest by exact Ha.
  unfold stored_header. rewrite <- app_assoc, !bits_of_app.
  assert (0 <= zlen x) by (unfold zlen; lia).
  rewrite (take_le 2) by (cbn; lia). cbn [stop]. rewrite (take_le 2) by (cbn; lia). cbn [stop].
  destruct (Z.eqb_spec (zlen x + (65535 - zlen x)) 65535); [reflexivity|lia].
Qed.

Definition padding : list bool := [false; false; false; false; false].
Lemma blocks_stored fin y fuel o b :
  blocks (y :: fuel) o (byte_bits 8 (Z.b2z fin) ++ b) =
  match stored_block o (padding ++ b) with
  | Stopped s o => Stopped s o
  | Going o b => if fin then Going o b else blocks fuel o b
  end.
Proof. destruct fin; reflexivity. Qed.

Lemma stored_blocks_cons x bs : stored_blocks (x :: bs) =
  Z.b2z (match bs with [] => true | _ => false end) :: stored_header x ++ x ++ stored_blocks bs.
Proof. unfold stored_header. rewrite <- app_assoc. now destruct bs. Qed.

Lemma bits_cons x l : bits_of (x :: l) = byte_bits 8 x ++ bits_of l.
Proof. reflexivity. Qed.

(** [fuel] outlasts the blocks *)
Lemma blocks_fit bs : forall fuel o l, storable bs -> (length bs <= length fuel)%nat ->
  zlen (concat bs) <= z_room o ->
  blocks fuel o (bits_of (stored_blocks bs ++ l)) = Going (wrote o (concat bs)) (bits_of l).
Proof.
  induction bs as [|x bs IH]; intros fuel o l [Hne Hall] Hf Hr; [congruence|].
  inversion Hall as [|? ? [Hx Hxb] Hbs]; subst.
  destruct fuel as [|y fuel]; [cbn in Hf; lia|].
  rewrite stored_blocks_cons. cbn [app]. rewrite <- !app_assoc, bits_cons, blocks_stored.
  unfold zlen in *. cbn [concat length] in *. rewrite app_length in Hr.
  rewrite stored_block_eq by (cbn; unfold zlen; lia).
  rewrite stored_bytes_fit; [|exact Hxb| |unfold zlen; lia].
  2: { rewrite bits_of_length, app_length. lia. }
  destruct bs as [|x2 bs].
  - cbn [stored_blocks concat]. now rewrite app_nil_l, app_nil_r.
  - rewrite IH.
    + f_equal. unfold wrote, zlen. cbn [z_out z_room]. rewrite rev_app_distr, <- app_assoc.
      f_equal. rewrite app_length. lia.
    + split; [congruence|exact Hbs].
    + lia.
    + cbn [z_room wrote]. unfold zlen. lia.
Qed.

Lemma blocks_full bs : forall fuel o l, storable bs -> (length bs <= length fuel)%nat ->
  0 <= z_room o < zlen (concat bs) ->
  blocks fuel o (bits_of (stored_blocks bs ++ l)) =
    Stopped ZBufError (wrote o (firstn (Z.to_nat (z_room o)) (concat bs))).
Proof.
  induction bs as [|x bs IH]; intros fuel o l [Hne Hall] Hf Hr; [congruence|].
  inversion Hall as [|? ? [Hx Hxb] Hbs]; subst.
  destruct fuel as [|y fuel]; [cbn in Hf; lia|].
  rewrite stored_blocks_cons. cbn [app]. rewrite <- !app_assoc, bits_cons, blocks_stored.
  unfold zlen in *. cbn [concat length] in *. rewrite app_length in Hr.
  rewrite stored_block_eq by (cbn; unfold zlen; lia).
  destruct (Z_lt_dec (z_room o) (zlen x)) as [Hlt|Hge].
  - unfold zlen in Hlt. rewrite stored_bytes_full; [|exact Hxb| |unfold zlen; lia].
    2: { rewrite bits_of_length, app_length. lia. }
    rewrite firstn_app. replace (_ - length x)%nat with 0%nat by lia.
    now rewrite firstn_O, app_nil_r.
  - unfold zlen in Hge. rewrite stored_bytes_fit; [|exact Hxb| |unfold zlen; lia].
    2: { rewrite bits_of_length, app_length. lia. }
    destruct bs as [|x2 bs]; [cbn in Hr; lia|].
    rewrite IH.
    + f_equal. unfold wrote, zlen. cbn [z_out z_room].
      rewrite (firstn_app _ x), (firstn_all2 x) by lia.
      rewrite rev_app_distr, <- app_assoc, app_length.
      replace (Z.to_nat (z_room o - Z.of_nat (length x))) with
        (Z.to_nat (z_room o) - length x)%nat by lia. f_equal. lia.
    + split; [congruence|exact Hbs].
    + lia.
    + cbn [z_room wrote]. unfold zlen. lia.
Qed.

(** *** The checksum *)
Lemma adler_fold l : forall a s,
  fold_left (fun '(a, s) x => let a := (a + x) mod 65521 in (a, (s + a) mod 65521)) l
    (a mod 65521, s mod 65521) =
  ((a + sum l) mod 65521, (s + zlen l * a + weighted_sum l) mod 65521).
Proof.
  induction l as [|x l IH]; intros a s.
  - cbn. f_equal; f_equal; lia.
  - cbn [fold_left sum weighted_sum]. cbv zeta.
    rewrite !Z.add_mod_idemp_l, !Z.add_mod_idemp_r by lia.
    rewrite IH. unfold zlen. cbn [length]. rewrite Nat2Z.inj_succ. f_equal; f_equal; lia.
Qed.

Lemma adler32_adler l : adler32 l = adler l.
Proof.
  unfold adler32, adler. change (1, 0) with (1 mod 65521, 0 mod 65521). rewrite adler_fold.
  cbv beta iota. do 3 f_equal. lia.
Qed.

Lemma adler_range l : 0 <= adler l < 2 ^ 32.
Proof.
  unfold adler. pose proof (Z.mod_pos_bound (zlen l + weighted_sum l) 65521).
  pose proof (Z.mod_pos_bound (1 + sum l) 65521). lia.
Qed.

Lemma take_checksum_eq v l : 0 <= v < 2 ^ 32 ->
  take_checksum (bits_of (be32 v ++ l)) = Got v (bits_of l).
Proof.
  intros H. unfold take_checksum.
  pose proof (skip_rest [] (be32 v ++ l) ltac:(cbn; lia)) as Hk. cbn [app] in Hk. rewrite Hk.
  assert (Hv : exists b0 b1 b2 b3, is_byte b0 /\ is_byte b1 /\ is_byte b2 /\ is_byte b3 /\
            v = b0 + 256 * (b1 + 256 * (b2 + 256 * b3))).
  { exists (v mod 256), (v / 256 mod 256), (v / 65536 mod 256), (v / 16777216).
    unfold is_byte. Z.div_mod_to_equations. lia. }
  destruct Hv as (b0 & b1 & b2 & b3 & H0 & H1 & H2 & H3 & ->). unfold is_byte in *.
  assert (Hd : forall a b, is_byte a -> (a + 256 * b) mod 256 = a /\ (a + 256 * b) / 256 = b).
  { clear. unfold is_byte. intros a b Ha. rewrite Z.mul_comm, Z.mod_add, Z.div_add by lia.
    rewrite Z.mod_small, Z.div_small by lia. lia. }
  assert (Hle : forall a b c d, is_byte a -> is_byte b -> is_byte c -> is_byte d ->
            le 4 (a + 256 * (b + 256 * (c + 256 * d))) = [a; b; c; d]).
  { clear - Hd. intros a b c d Ha Hb Hc Hdd. cbn [le].
    rewrite !(proj1 (Hd a _ Ha)), !(proj2 (Hd a _ Ha)), !(proj1 (Hd b _ Hb)), !(proj2 (Hd b _ Hb)),
      !(proj1 (Hd c _ Hc)), !(proj2 (Hd c _ Hc)). now rewrite Z.mod_small by exact Hdd. }
  unfold be32. rewrite Hle by assumption. cbn [rev app].
  change (b3 :: b2 :: b1 :: b0 :: l) with ([b3; b2; b1; b0] ++ l).
  rewrite <- (Hle b3 b2 b1 b0) by assumption. rewrite bits_of_app.
  change 32%nat with (8 * 4)%nat. rewrite take_le by (cbn; lia). f_equal.
  Z.div_mod_to_equations. lia.
Qed.

Lemma stored_long bs : storable bs -> (length bs <= length (stored_blocks bs))%nat.
Proof.
  intros [_ H]. induction bs as [|x bs IH]; [cbn; lia|]. rewrite stored_blocks_cons.
  inversion H; subst. cbn [length]. rewrite !app_length. specialize (IH ltac:(assumption)). lia.
Qed.

(** What becomes of a stream of stored blocks with any checksum. *)
Theorem inflate_stored bs v l n : storable bs -> 0 <= v < 2 ^ 32 -> 0 <= n ->
  inflate_zlib ([0x78; 0x01] ++ stored_blocks bs ++ be32 v ++ l) n =
    if n <? zlen (concat bs) then (ZBufError, firstn (Z.to_nat n) (concat bs))
    else (if v =? adler (concat bs) then ZStreamEnd else ZError, concat bs).
Proof.
  intros Hs Hv Hn. cbn [app inflate_zlib].
  replace (negb _ || _ || _ || _) with false by reflexivity.
  cbv zeta. set (body := stored_blocks bs ++ be32 v ++ l).
  assert (Hf : (length bs <= length (bits_of body))%nat).
  { unfold body. rewrite bits_of_length, app_length. pose proof (stored_long bs Hs). lia. }
  set (o := {| z_out := []; z_room := n |}).
  destruct (Z.ltb_spec n (zlen (concat bs))) as [Hlt|Hge].
  - unfold body at 2. rewrite blocks_full; [|exact Hs|exact Hf|cbn; lia].
    cbn [finish wrote z_out z_room o].
    rewrite rev_append_rev, !app_nil_r, rev_involutive. reflexivity.
  - unfold body at 2. rewrite blocks_fit; [|exact Hs|exact Hf|cbn; lia].
    cbn [finish wrote z_out z_room o].
    rewrite take_checksum_eq by exact Hv.
    rewrite rev_append_rev, !app_nil_r, rev_involutive, adler32_adler. reflexivity.
Qed.

Lemma inflate_reads_stored : reads_stored inflate_zlib.
Proof.
  intros bs H. pose proof (adler_range (concat bs)) as Hv.
  pose proof (inflate_stored bs (adler (concat bs)) [] (zlen (concat bs)) H) as E.
  rewrite app_nil_r in E. unfold zlib_stored. rewrite E by (unfold zlen in *; lia).
  rewrite Z.ltb_irrefl, Z.eqb_refl. reflexivity.
Qed.
