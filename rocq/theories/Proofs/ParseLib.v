(** Lemmas and tactics about the parser combinators. *)
From Verif.Model Require Export Nom Scalars.
From Verif.Spec Require Export Bytes Utf8Spec Format.
From Verif.Proofs Require Import Utf8Facts.
From Coq Require Export ZifyBool.
Local Ltac Zify.zify_post_hook ::= Z.div_mod_to_equations.

#[global] Arguments Z.mul : simpl never.
#[global] Arguments Z.add : simpl never.
#[global] Arguments Z.sub : simpl never.
#[global] Arguments Z.pow : simpl never.
#[global] Arguments Z.modulo : simpl never.
#[global] Arguments Z.div : simpl never.

(** One direction each of [reads]. *)
Definition sound {A} (p : parser A) (L : A -> bytes -> Prop) : Prop :=
  forall i r a, is_bytes i -> p i = Ok (r, a) -> exists e, i = e ++ r /\ L a e.
Definition accepts {A} (p : parser A) (L : A -> bytes -> Prop) : Prop :=
  forall e r a, L a e -> p (e ++ r) = Ok (r, a).

Lemma reads_intro {A} (p : parser A) L : sound p L -> accepts p L -> reads p L.
Proof.
  intros Hs Ha i r a Hi. split; [apply Hs, Hi|]. intros (e & -> & H). apply Ha, H.
Qed.

(** ** Lists and bytes *)
Lemma is_bytes_app a b : is_bytes (a ++ b) <-> is_bytes a /\ is_bytes b.
Proof. apply Forall_app. Qed.
Lemma is_bytes_app_r a b : is_bytes (a ++ b) -> is_bytes b.
Proof. intro H. apply is_bytes_app in H. apply H. Qed.
Lemma is_bytes_app_l a b : is_bytes (a ++ b) -> is_bytes a.
Proof. intro H. apply is_bytes_app in H. apply H. Qed.

Lemma zlen_app {A} (a b : list A) : zlen (a ++ b) = zlen a + zlen b.
Proof. unfold zlen. rewrite app_length. lia. Qed.
Lemma zlen_nonneg {A} (a : list A) : 0 <= zlen a.
Proof. unfold zlen. lia. Qed.
Lemma zlen_cons {A} (x : A) l : zlen (x :: l) = zlen l + 1.
Proof. unfold zlen. cbn [length]. lia. Qed.
Lemma zlen_nil {A} : zlen (@nil A) = 0.
Proof. reflexivity. Qed.

Lemma length_le n v : length (le n v) = n.
Proof. revert v; induction n as [|n IH]; intro v; cbn [le length]; [reflexivity|]. now rewrite IH. Qed.
Lemma length_les n v : length (les n v) = n.
Proof. apply length_le. Qed.
Lemma zlen_le n v : zlen (le n v) = Z.of_nat n.
Proof. unfold zlen. now rewrite length_le. Qed.
Lemma zlen_les n v : zlen (les n v) = Z.of_nat n.
Proof. apply zlen_le. Qed.
Lemma is_bytes_le n v : is_bytes (le n v).
Proof.
  revert v; induction n as [|n IH]; intro v; cbn [le]; constructor; [|apply IH].
  unfold is_byte. lia.
Qed.
Lemma is_bytes_les n v : is_bytes (les n v).
Proof. apply is_bytes_le. Qed.

Lemma firstn_length_app {A} (a b : list A) : firstn (length a) (a ++ b) = a.
Proof. rewrite firstn_app, Nat.sub_diag, firstn_O, app_nil_r. apply firstn_all. Qed.
Lemma skipn_length_app {A} (a b : list A) : skipn (length a) (a ++ b) = b.
Proof. rewrite skipn_app, Nat.sub_diag, skipn_O, skipn_all. reflexivity. Qed.

Lemma pow256_succ n : 256 ^ Z.of_nat (S n) = 256 * 256 ^ Z.of_nat n.
Proof. rewrite Nat2Z.inj_succ, Z.pow_succ_r; lia. Qed.
Lemma pow256_pos n : 0 < 256 ^ Z.of_nat n.
Proof. apply Z.pow_pos_nonneg; lia. Qed.

Lemma le_value_le n v : uint n v -> le_value (le n v) = v.
Proof.
  unfold uint. revert v; induction n as [|n IH]; intros v Hv.
  - cbn in Hv. cbn [le le_value]. lia.
  - rewrite pow256_succ in Hv. cbn [le le_value]. rewrite IH; [lia|].
    pose proof (pow256_pos n). split; [lia|]. apply Z.div_lt_upper_bound; lia.
Qed.
Lemma le_value_range l : is_bytes l -> uint (length l) (le_value l).
Proof.
  unfold uint. induction 1 as [|b l Hb _ IH]; [cbn; lia|].
  cbn [length le_value]. rewrite pow256_succ. unfold is_byte in Hb. lia.
Qed.
Lemma le_le_value l : is_bytes l -> le (length l) (le_value l) = l.
Proof.
  induction 1 as [|b l Hb _ IH]; [reflexivity|].
  cbn [length le_value le]. unfold is_byte in Hb. f_equal; [lia|].
  replace ((b + 256 * le_value l) / 256) with (le_value l) by lia. exact IH.
Qed.
Lemma le_inj n v w : uint n v -> uint n w -> le n v = le n w -> v = w.
Proof. intros Hv Hw E. rewrite <- (le_value_le n v Hv), <- (le_value_le n w Hw), E. reflexivity. Qed.

(** ** Primitive parsers *)
Lemma le_uint_app n v r : uint n v -> le_uint n (le n v ++ r) = Ok (r, v).
Proof.
  intro H. unfold le_uint. rewrite app_length, length_le.
  replace (n + length r <? n)%nat with false by (symmetry; apply Nat.ltb_ge; lia).
  rewrite <- (length_le n v) at 1 3. rewrite skipn_length_app, firstn_length_app.
  now rewrite le_value_le.
Qed.
Lemma le_uint_sound n : sound (le_uint n) (uint_l n).
Proof.
  intros i r a Hi. unfold le_uint. destruct (Nat.ltb_spec (length i) n) as [Hl|Hl]; [discriminate|].
  intros [= <- <-]. exists (firstn n i). split; [symmetry; apply firstn_skipn|].
  assert (Hb : is_bytes (firstn n i)).
  { rewrite <- (firstn_skipn n i) in Hi. apply is_bytes_app_l in Hi. exact Hi. }
  assert (Hn : length (firstn n i) = n) by (rewrite firstn_length; lia).
  pose proof (le_value_range _ Hb) as H1. pose proof (le_le_value _ Hb) as H2.
  rewrite Hn in H1, H2. split; [exact H1|]. now rewrite H2.
Qed.
Lemma le_uint_short n i : (length i < n)%nat <-> exists e, le_uint n i = Err e.
Proof.
  unfold le_uint. destruct (Nat.ltb_spec (length i) n) as [Hl|Hl].
  - split; [intro; eexists; reflexivity|trivial].
  - split; [lia|]. intros (e & [=]).
Qed.

Lemma pow256_even n : (0 < n)%nat -> exists h, 256 ^ Z.of_nat n = 2 * h /\ 2 ^ (8 * Z.of_nat n - 1) = h /\
    2 ^ (8 * Z.of_nat n) = 2 * h /\ 0 < h.
Proof.
  intro Hn. exists (2 ^ (8 * Z.of_nat n - 1)).
  assert (E : 2 ^ (8 * Z.of_nat n) = 2 * 2 ^ (8 * Z.of_nat n - 1)).
  { rewrite <- Z.pow_succ_r by lia. f_equal. lia. }
  assert (E2 : 256 ^ Z.of_nat n = 2 ^ (8 * Z.of_nat n)).
  { change 256 with (2 ^ 8). rewrite <- Z.pow_mul_r by lia. reflexivity. }
  split; [lia|]. split; [reflexivity|]. split; [exact E|]. apply Z.pow_pos_nonneg; lia.
Qed.
Lemma to_signed_mod n v : (0 < n)%nat -> sint n v ->
  to_signed (8 * Z.of_nat n) (v mod 256 ^ Z.of_nat n) = v.
Proof.
  intros Hn Hv. unfold to_signed, sint in *. destruct (pow256_even n Hn) as (h & E1 & E2 & E3 & Hh).
  rewrite E1, E2, E3 in *. replace (2 * h / 2) with h in Hv by lia.
  destruct (Z.ltb_spec v 0) as [H|H].
  - replace (v mod (2 * h)) with (v + 2 * h).
    + destruct (Z.ltb_spec (v + 2 * h) h); lia.
    + symmetry. rewrite <- (Z_mod_plus_full v 1 (2 * h)). rewrite Z.mod_small; lia.
  - rewrite Z.mod_small by lia. destruct (Z.ltb_spec v h); lia.
Qed.
Lemma to_signed_range n v : (0 < n)%nat -> uint n v ->
  sint n (to_signed (8 * Z.of_nat n) v) /\ to_signed (8 * Z.of_nat n) v mod 256 ^ Z.of_nat n = v.
Proof.
  intros Hn Hv. unfold to_signed, sint, uint in *. destruct (pow256_even n Hn) as (h & E1 & E2 & E3 & Hh).
  rewrite E1, E2, E3 in *. replace (2 * h / 2) with h by lia.
  destruct (Z.ltb_spec v h) as [H|H].
  - split; [lia|]. apply Z.mod_small; lia.
  - split; [lia|]. rewrite <- (Z_mod_plus_full _ 1 (2 * h)). rewrite Z.mod_small; lia.
Qed.

Lemma le_int_app n v r : (0 < n)%nat -> sint n v -> le_int n (les n v ++ r) = Ok (r, v).
Proof.
  intros Hn Hv. unfold le_int, les. rewrite le_uint_app.
  - cbn [bind]. now rewrite to_signed_mod.
  - unfold uint. apply Z.mod_pos_bound, pow256_pos.
Qed.
Lemma le_int_sound n : (0 < n)%nat -> sound (le_int n) (sint_l n).
Proof.
  intros Hn i r a Hi. unfold le_int. destruct (le_uint n i) as [[r' v]|e|p] eqn:E; try discriminate.
  cbn [bind]. intros [= <- <-]. apply le_uint_sound in E as (e & -> & Hv & ->); [|exact Hi].
  exists (le n v). split; [reflexivity|]. destruct (to_signed_range n v Hn Hv) as [H1 H2].
  split; [exact H1|]. unfold les. now rewrite H2.
Qed.

Lemma byte_app v r : u8 v -> byte (le 1 v ++ r) = Ok (r, v).
Proof. apply le_uint_app. Qed.
Lemma word_app v r : u16 v -> word (le 2 v ++ r) = Ok (r, v).
Proof. apply le_uint_app. Qed.
Lemma dword_app v r : u32 v -> dword (le 4 v ++ r) = Ok (r, v).
Proof. apply le_uint_app. Qed.
Lemma short_app v r : i16 v -> short (les 2 v ++ r) = Ok (r, v).
Proof. apply le_int_app. lia. Qed.
Lemma long_app v r : i32 v -> long (les 4 v ++ r) = Ok (r, v).
Proof. apply le_int_app. lia. Qed.
Lemma byte_sound : sound byte (uint_l 1).
Proof. apply le_uint_sound. Qed.
Lemma word_sound : sound word (uint_l 2).
Proof. apply le_uint_sound. Qed.
Lemma dword_sound : sound dword (uint_l 4).
Proof. apply le_uint_sound. Qed.
Lemma short_sound : sound short (sint_l 2).
Proof. apply le_int_sound. lia. Qed.
Lemma long_sound : sound long (sint_l 4).
Proof. apply le_int_sound. lia. Qed.

Lemma take_app n s r : zlen s = n -> take n (s ++ r) = Ok (r, s).
Proof.
  intros <-. unfold take. rewrite zlen_app. pose proof (zlen_nonneg r).
  replace (zlen s + zlen r <? zlen s) with false by lia.
  unfold zlen. rewrite Nat2Z.id, skipn_length_app, firstn_length_app. reflexivity.
Qed.
Lemma take_all s : take (zlen s) s = Ok ([], s).
Proof. rewrite <- (app_nil_r s) at 2. now apply take_app. Qed.
Lemma take_inv n i r s : 0 <= n -> take n i = Ok (r, s) -> i = s ++ r /\ zlen s = n.
Proof.
  intro Hn. unfold take. destruct (Z.ltb_spec (zlen i) n) as [H|H]; [discriminate|].
  intros [= <- <-]. split; [symmetry; apply firstn_skipn|].
  unfold zlen in *. rewrite firstn_length. lia.
Qed.
Lemma take_sound n : 0 <= n -> sound (take n) (fun s e => e = s /\ zlen s = n).
Proof.
  intros Hn i r s _ H. apply take_inv in H as [-> H]; [|exact Hn]. exists s. auto.
Qed.

Lemma list_eqb_eq a b : list_eqb a b = true <-> a = b.
Proof.
  revert b; induction a as [|x a IH]; intros [|y b]; cbn [list_eqb]; try (split; congruence).
  rewrite andb_true_iff, IH, Z.eqb_eq. split; [intros [-> ->]; reflexivity|intros [= -> ->]; auto].
Qed.
Lemma tag_app t r : tag t (t ++ r) = Ok (r, t).
Proof.
  unfold tag. rewrite firstn_length_app, skipn_length_app.
  replace (list_eqb t t) with true by (symmetry; now apply list_eqb_eq). reflexivity.
Qed.
Lemma tag_inv t i r s : tag t i = Ok (r, s) -> i = t ++ r /\ s = t.
Proof.
  unfold tag. destruct (list_eqb _ _) eqn:E; [|discriminate]. intros [= <- <-].
  apply list_eqb_eq in E. split; [|reflexivity]. rewrite <- E at 1. symmetry. apply firstn_skipn.
Qed.

(** ** Inversion of [bind] chains *)
Lemma bind_ok {E A B} (m : out E A) (k : A -> out E B) b :
  bind m k = Ok b -> exists a, m = Ok a /\ k a = Ok b.
Proof. destruct m; cbn [bind]; intro H; try discriminate. eauto. Qed.

(** [pstep]: peel one [bind] of a hypothesis [bind m k = Ok _] whose result is a
    (rest, value) pair. *)
Ltac pbind H :=
  match type of H with
  | bind ?m _ = Ok _ =>
      let E := fresh "E" in
      destruct m as [[? ?]|?|?] eqn:E; cbn [bind] in H; [|discriminate H|discriminate H]
  end.

Lemma parse_string_app s e r : string_l s e -> parse_string (e ++ r) = Ok (r, s).
Proof.
  intros (Hn & Hu & ->). unfold parse_string, flat_map_p. rewrite <- app_assoc, word_app by exact Hn.
  cbn [bind]. rewrite take_app by reflexivity. cbn [bind].
  apply from_utf8_valid in Hu. now rewrite Hu.
Qed.
Lemma parse_string_sound : sound parse_string string_l.
Proof.
  intros i r s Hi. unfold parse_string, flat_map_p. intro H.
  destruct (word i) as [[i1 n]|?|?] eqn:E; cbn [bind] in H; try discriminate.
  apply word_sound in E as (e & -> & Hn & ->); [|exact Hi].
  destruct (take n i1) as [[i2 s']|?|?] eqn:E2; cbn [bind] in H; try discriminate.
  apply take_inv in E2 as [-> Hl]; [|unfold uint in Hn; lia].
  destruct (from_utf8 s') as [[? ?]|] eqn:Hu; [discriminate|]. injection H as <- <-.
  exists (le 2 n ++ s'). rewrite <- app_assoc. split; [reflexivity|].
  apply from_utf8_valid in Hu. unfold string_l. rewrite Hl. auto.
Qed.

(** ** Repetition *)
Lemma seq_l_nil {A} (L : A -> bytes -> Prop) : seq_l L [] [].
Proof. exists []. split; [constructor|reflexivity]. Qed.
Lemma seq_l_cons {A} (L : A -> bytes -> Prop) x l e1 e2 :
  L x e1 -> seq_l L l e2 -> seq_l L (x :: l) (e1 ++ e2).
Proof. intros H (ps & H2 & ->). exists (e1 :: ps). split; [constructor; assumption|reflexivity]. Qed.
Lemma seq_l_nil_inv {A} (L : A -> bytes -> Prop) e : seq_l L [] e -> e = [].
Proof. intros (ps & H & ->). inversion H. reflexivity. Qed.
Lemma seq_l_cons_inv {A} (L : A -> bytes -> Prop) x l e :
  seq_l L (x :: l) e -> exists e1 e2, e = e1 ++ e2 /\ L x e1 /\ seq_l L l e2.
Proof.
  intros (ps & H & ->). inversion H; subst. cbn [concat].
  do 2 eexists. split; [reflexivity|]. split; [assumption|]. eexists; split; [eassumption|reflexivity].
Qed.
Lemma seq_l_app {A} (L : A -> bytes -> Prop) l1 l2 e1 e2 :
  seq_l L l1 e1 -> seq_l L l2 e2 -> seq_l L (l1 ++ l2) (e1 ++ e2).
Proof.
  intros (p1 & H1 & ->) (p2 & H2 & ->). exists (p1 ++ p2). split; [apply Forall2_app; assumption|].
  symmetry. apply concat_app.
Qed.
Lemma seq_l_impl {A} (L L' : A -> bytes -> Prop) l e :
  (forall x e, L x e -> L' x e) -> seq_l L l e -> seq_l L' l e.
Proof.
  intros HI (ps & H & ->). exists ps. split; [|reflexivity].
  induction H; constructor; auto.
Qed.

Lemma count_nat_sound {A} (p : parser A) L n :
  sound p L -> sound (count_nat p n) (fun l e => length l = n /\ seq_l L l e).
Proof.
  intro Hp. induction n as [|n IH]; intros i r l Hi H; cbn [count_nat] in H.
  - injection H as <- <-. exists []. split; [reflexivity|]. split; [reflexivity|apply seq_l_nil].
  - pbind H. pbind H. injection H as <- <-.
    apply Hp in E as (e1 & -> & H1); [|exact Hi]. apply is_bytes_app_r in Hi.
    apply IH in E0 as (e2 & -> & H2 & H3); [|exact Hi].
    exists (e1 ++ e2). rewrite <- app_assoc. split; [reflexivity|].
    split; [cbn; congruence|]. now apply seq_l_cons.
Qed.
Lemma count_nat_app {A} (p : parser A) L l e r :
  accepts p L -> seq_l L l e -> count_nat p (length l) (e ++ r) = Ok (r, l).
Proof.
  intros Hp. revert e; induction l as [|x l IH]; intros e H; cbn [length count_nat].
  - apply seq_l_nil_inv in H. now subst.
  - apply seq_l_cons_inv in H as (e1 & e2 & -> & H1 & H2).
    rewrite <- app_assoc, (Hp _ _ _ H1). cbn [bind]. rewrite (IH _ H2). reflexivity.
Qed.
Lemma count_sound {A} (p : parser A) L n : 0 <= n ->
  sound p L -> sound (count p n) (fun l e => zlen l = n /\ seq_l L l e).
Proof.
  intros Hn Hp i r l Hi H. apply (count_nat_sound _ _ _ Hp) in H as (e & -> & H1 & H2); [|exact Hi].
  exists e. split; [reflexivity|]. split; [unfold zlen; lia|exact H2].
Qed.
Lemma count_app {A} (p : parser A) L n l e r : zlen l = n ->
  accepts p L -> seq_l L l e -> count p n (e ++ r) = Ok (r, l).
Proof.
  intros <- Hp H. unfold count, zlen. rewrite Nat2Z.id. now apply count_nat_app with L.
Qed.

Lemma pmap_app {A B} (p : parser A) (f : A -> B) i r a : p i = Ok (r, a) -> pmap p f i = Ok (r, f a).
Proof. intro H. unfold pmap. now rewrite H. Qed.
Lemma pmap_inv {A B} (p : parser A) (f : A -> B) i r b :
  pmap p f i = Ok (r, b) -> exists a, p i = Ok (r, a) /\ b = f a.
Proof. unfold pmap. intro H. pbind H. injection H as <- <-. eauto. Qed.

Lemma cond_sound {A} (p : parser A) L b :
  sound p L -> sound (cond b p) (fun o e => opt_l L o e /\ (is_some o <-> b = true)).
Proof.
  intros Hp i r o Hi. unfold cond. destruct b.
  - intro H. apply pmap_inv in H as (a & H & ->). apply Hp in H as (e & -> & H); [|exact Hi].
    exists e. split; [reflexivity|]. cbn. tauto.
  - intros [= <- <-]. exists []. split; [reflexivity|]. cbn. split; [reflexivity|]. split; [tauto|congruence].
Qed.
Lemma cond_app {A} (p : parser A) L b o e r :
  accepts p L -> opt_l L o e -> (is_some o <-> b = true) -> cond b p (e ++ r) = Ok (r, o).
Proof.
  intros Hp Ho Hb. destruct o as [a|]; cbn [opt_l is_some] in *.
  - destruct Hb as [Hb _]. rewrite (Hb I). now apply pmap_app, Hp.
  - subst e. destruct b; [destruct Hb as [_ Hb]; destruct (Hb eq_refl)|reflexivity].
Qed.
