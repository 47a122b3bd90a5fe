(** The texts of errors. *)
From Coq Require Import String.
From Verif.Model Require Import Base Nom Loader Messages.
From Verif.Spec Require Import Bytes Utf8Spec Format Errors Messages.
From Verif.Proofs Require Import Utf8Facts ParseLib ErrorProps.
Local Open Scope Z_scope.
Local Open Scope list_scope.

(** ** Decimal numbers *)
Definition is_digit (c : Z) : Prop := 48 <= c <= 57.
Definition numeral (c : Z) : Prop := c = 45 \/ is_digit c.
Definition value (l : bytes) : Z := fold_left (fun a d => 10 * a + (d - 48)) l 0.

Lemma value_app l d : value (l ++ [d]) = 10 * value l + (d - 48).
Proof. unfold value. now rewrite fold_left_app. Qed.
Lemma digits_facts fuel : forall z, 0 <= z < 10 ^ (Z.of_nat fuel + 1) ->
  Forall is_digit (digits fuel z) /\ digits fuel z <> [] /\ value (digits fuel z) = z /\
  forall k, 1 <= k -> z < 10 ^ k -> zlen (digits fuel z) <= k.
Proof.
  induction fuel as [|fuel IH]; intros z Hz; cbn [digits].
  - cbn in Hz. split; [constructor; [unfold is_digit; lia|constructor]|]. split; [discriminate|]. split; [unfold value; cbn [fold_left]; lia|]. intros. unfold zlen. cbn [length]. lia.
  - destruct (Z.ltb_spec z 10) as [H|H].
    + split; [constructor; [unfold is_digit; lia|constructor]|]. split; [discriminate|]. split; [unfold value; cbn [fold_left]; lia|]. intros. unfold zlen. cbn [length]. lia.
    + assert (M : 0 <= z mod 10 < 10) by (apply Z.mod_pos_bound; lia). pose proof (Z.div_mod z 10 ltac:(lia)) as D.
      assert (B : 0 <= z / 10 < 10 ^ (Z.of_nat fuel + 1)).
      { split; [apply Z.div_pos; lia|]. apply Z.div_lt_upper_bound; [lia|]. rewrite <- Z.pow_succ_r by lia.
        replace (Z.succ (Z.of_nat fuel + 1)) with (Z.of_nat (S fuel) + 1) by lia. lia. }
      destruct (IH _ B) as (I1 & I2 & I3 & I4). split; [apply Forall_app; split; [exact I1|constructor; [unfold is_digit; lia|constructor]]|].
      split; [destruct (digits fuel _); discriminate|]. split; [rewrite value_app, I3; lia|].
      intros k Hk1 Hk2. unfold zlen. rewrite app_length. cbn [length].
      assert (2 <= k). { destruct (Z.eq_dec k 1) as [-> |]; [cbn in Hk2; lia|lia]. }
      assert (zlen (digits fuel (z / 10)) <= k - 1).
      { apply I4; [lia|]. apply Z.div_lt_upper_bound; [lia|]. rewrite <- Z.pow_succ_r by lia. now replace (Z.succ (k - 1)) with k by lia. }
      unfold zlen in *. lia.
Qed.
Lemma fuel_enough z : 0 <= z -> 0 <= z < 10 ^ (Z.of_nat (S (Z.to_nat (Z.log2 z))) + 1).
Proof.
  intro H. split; [exact H|]. rewrite Nat2Z.inj_succ, Z2Nat.id by apply Z.log2_nonneg.
  destruct (Z.eq_dec z 0) as [-> |N]; [cbn; lia|].
  pose proof (Z.log2_spec z ltac:(lia)) as [_ L]. pose proof (Z.log2_nonneg z).
  assert (2 ^ Z.succ (Z.log2 z) <= 10 ^ Z.succ (Z.log2 z)) by (apply Z.pow_le_mono_l; lia).
  assert (10 ^ Z.succ (Z.log2 z) <= 10 ^ (Z.succ (Z.log2 z) + 1)) by (apply Z.pow_le_mono_r; lia). lia.
Qed.
Lemma decimal_numeral z : Forall numeral (decimal z).
Proof.
  unfold decimal. destruct (Z.ltb_spec z 0) as [H|H].
  - constructor; [now left|]. eapply Forall_impl; [|exact (proj1 (digits_facts _ _ (fuel_enough (- z) ltac:(lia))))]. intros a Ha. now right.
  - eapply Forall_impl; [|exact (proj1 (digits_facts _ _ (fuel_enough z H)))]. intros a Ha. now right.
Qed.
Lemma decimal_head z : exists d l, decimal z = d :: l /\ numeral d.
Proof.
  pose proof (decimal_numeral z) as H. destruct (decimal z) as [|d l] eqn:E.
  - exfalso. unfold decimal in E. destruct (Z.ltb_spec z 0) as [N|N]; [discriminate|].
    destruct (digits_facts _ _ (fuel_enough z N)) as (_ & I & _). exact (I E).
  - exists d, l. split; [reflexivity|]. now inversion H.
Qed.
Lemma decimal_length z k : 0 <= z < 10 ^ k -> 1 <= k -> 1 <= zlen (decimal z) <= k.
Proof.
  intros [H1 H2] Hk. destruct (decimal_head z) as (d & l & E & _). split; [rewrite E; unfold zlen; cbn; lia|].
  unfold decimal. replace (z <? 0) with false by lia. destruct (digits_facts _ _ (fuel_enough z H1)) as (_ & _ & _ & I). now apply I.
Qed.
Lemma decimal_inj a b : decimal a = decimal b -> a = b.
Proof.
  unfold decimal. destruct (Z.ltb_spec a 0) as [Ha|Ha], (Z.ltb_spec b 0) as [Hb|Hb]; intro E.
  - apply (f_equal (@tl Z)) in E. cbn [tl] in E. apply (f_equal value) in E.
    rewrite (proj1 (proj2 (proj2 (digits_facts _ _ (fuel_enough (- a) ltac:(lia)))))), (proj1 (proj2 (proj2 (digits_facts _ _ (fuel_enough (- b) ltac:(lia)))))) in E. lia.
  - exfalso. pose proof (proj1 (digits_facts _ _ (fuel_enough b Hb))) as D. rewrite <- E in D. inversion D as [|? ? X]; subst. unfold is_digit in X. lia.
  - exfalso. pose proof (proj1 (digits_facts _ _ (fuel_enough a Ha))) as D. rewrite E in D. inversion D as [|? ? X]; subst. unfold is_digit in X. lia.
  - apply (f_equal value) in E.
    rewrite (proj1 (proj2 (proj2 (digits_facts _ _ (fuel_enough a Ha))))), (proj1 (proj2 (proj2 (digits_facts _ _ (fuel_enough b Hb))))) in E. exact E.
Qed.

(** A number ends where the text goes on with something else. *)
Definition stops (x : bytes) : Prop := match x with [] => True | c :: _ => ~ numeral c end.
Lemma span_eq u u' : Forall numeral u -> Forall numeral u' -> forall x y, stops x -> stops y -> u ++ x = u' ++ y -> u = u' /\ x = y.
Proof.
  intro H. revert u'. induction H as [|a u Ha Hu IH]; intros u' H' x y Hx Hy E.
  - destruct H' as [|b u' Hb Hu']; [auto|]. cbn [app] in E. subst x. contradiction.
  - destruct H' as [|b u' Hb Hu']; cbn [app] in E; [subst y; contradiction|]. injection E as -> E.
    destruct (IH u' Hu' x y Hx Hy E) as [-> ->]. auto.
Qed.
Lemma decimal_app a b x y : stops x -> stops y -> decimal a ++ x = decimal b ++ y -> a = b /\ x = y.
Proof.
  intros Hx Hy E. apply span_eq in E as [E ->]; [|apply decimal_numeral|apply decimal_numeral|exact Hx|exact Hy].
  split; [now apply decimal_inj|reflexivity].
Qed.

Ltac texts := repeat match goal with
  | |- context [text ?s] => let v := eval vm_compute in (text s) in change (text s) with v
  | H : context [text ?s] |- _ => let v := eval vm_compute in (text s) in change (text s) with v in H
  end.
Ltac stopped := texts; unfold stops, numeral, is_digit; cbn [app]; lia.

Lemma separated_cons z l : exists t, separated (z :: l) = decimal z ++ t.
Proof. destruct l; cbn [separated]; [exists []; now rewrite app_nil_r|eexists; reflexivity]. Qed.
Lemma separated_inj l : forall l' x y, separated l ++ 93 :: x = separated l' ++ 93 :: y -> l = l' /\ x = y.
Proof.
  assert (N : forall z w x y, 93 :: x <> separated (z :: w) ++ y).
  { intros z w x y E. destruct (separated_cons z w) as (t & E'). rewrite E' in E. destruct (decimal_head z) as (d & u & E2 & Hd). rewrite E2 in E.
    cbn [app] in E. injection E as E _. unfold numeral, is_digit in Hd. lia. }
  induction l as [|a l IH]; intros [|b l'] x y E.
  - cbn in E. injection E as ->. auto.
  - exfalso. exact (N _ _ _ _ E).
  - exfalso. exact (N _ _ _ _ (eq_sym E)).
  - assert (S : forall z w v, separated (z :: w) ++ 93 :: v = decimal z ++ match w with [] => 93 :: v | _ => text ", " ++ separated w ++ 93 :: v end).
    { intros z [|w0 w] v; cbn [separated]; [reflexivity|]. now rewrite <- !app_assoc. }
    rewrite !S in E. apply decimal_app in E as [-> E]; [|destruct l; stopped|destruct l'; stopped].
    destruct l as [|a0 l], l' as [|b0 l']; texts; cbn [app] in E; try discriminate E.
    + injection E as ->. auto.
    + injection E as E. destruct (IH (b0 :: l') x y E) as [E1 ->]. now rewrite E1.
Qed.

Lemma parse_error_debug_inj e e' : parse_error_debug e = parse_error_debug e' -> e = e'.
Proof.
  intro H. pose proof (f_equal (firstn 13) H) as D.
  destruct e, e'; try reflexivity; try (exfalso; lazy in D; discriminate D); clear D;
    cbn [parse_error_debug] in H; try (apply app_inv_head in H).
  - apply decimal_app in H as [-> _]; [reflexivity|stopped|stopped].
  - apply decimal_app in H as [-> _]; [reflexivity|stopped|stopped].
  - apply decimal_app in H as [-> _]; [reflexivity|stopped|stopped].
  - apply decimal_app in H as [-> H]; [|stopped|stopped]. apply app_inv_head in H.
    destruct error_len as [n|], error_len0 as [n'|]; cbn [option_debug] in H.
    + rewrite <- !app_assoc in H. apply app_inv_head in H. apply decimal_app in H as [-> _]; [reflexivity|stopped|stopped].
    + exfalso. texts. discriminate H.
    + exfalso. texts. discriminate H.
    + reflexivity.
  - apply app_inv_tail in H. destruct e, e0; first [reflexivity|exfalso; vm_compute in H; discriminate H].
  - apply decimal_app in H as [-> H]; [|stopped|stopped]. apply app_inv_head in H.
    apply decimal_app in H as [-> _]; [reflexivity|stopped|stopped].
  - apply decimal_app in H as [-> _]; [reflexivity|stopped|stopped].
  - unfold slice_debug in H. rewrite <- !app_assoc in H. apply app_inv_head in H.
    change (text "]") with [93] in H. cbn [app] in H. apply separated_inj in H as [-> H]. apply app_inv_head in H.
    destruct k, k0; first [reflexivity|exfalso; vm_compute in H; discriminate H].
Qed.

Lemma message_inj e e' : message e = message e' -> e = e'.
Proof.
  destruct e as [[x|x]| |], e' as [[y|y]| |]; cbn [message nom_err_display]; intro H; try reflexivity;
    try (exfalso; texts; cbn [app] in H; discriminate H).
  - apply app_inv_head in H. f_equal. f_equal. now apply parse_error_debug_inj.
  - apply app_inv_head in H. f_equal. f_equal. now apply parse_error_debug_inj.
  - apply app_inv_head in H. apply decimal_app in H as [-> H]; [|stopped|stopped]. apply app_inv_head in H. apply decimal_inj in H as ->. reflexivity.
Qed.

(** ** Printable *)
Lemma printable_app a b : printable a -> printable b -> printable (a ++ b).
Proof. intros. now apply Forall_app. Qed.
Lemma printable_decimal z : printable (decimal z).
Proof. eapply Forall_impl; [|apply decimal_numeral]. intros a [->|H]; [lia|unfold is_digit in H; lia]. Qed.
Lemma printable_check l : forallb (fun c => (32 <=? c) && (c <=? 126)) l = true -> printable l.
Proof. intro H. apply Forall_forall. intros x Hx. rewrite forallb_forall in H. specialize (H x Hx). lia. Qed.
Ltac printing := repeat apply printable_app; try apply printable_decimal; try (apply printable_check; reflexivity).
Lemma printable_separated l : printable (separated l).
Proof. induction l as [|a [|b l] IH]; cbn [separated]; [constructor|apply printable_decimal|]. printing. exact IH. Qed.
Lemma printable_debug e : printable (parse_error_debug e).
Proof.
  destruct e; cbn [parse_error_debug]; printing.
  - destruct error_len; cbn [option_debug]; printing.
  - destruct e; printing.
  - unfold slice_debug. printing. apply printable_separated.
  - destruct k; printing.
Qed.
Lemma message_printable e : printable (load_sprite_error_display e).
Proof.
  unfold load_sprite_error_display. apply printable_app; [printing|].
  destruct e as [[x|x]| |]; cbn [message nom_err_display]; printing; apply printable_debug.
Qed.

(** ** Length *)
Lemma zlen_app (a b : bytes) : zlen (a ++ b) = zlen a + zlen b.
Proof. unfold zlen. rewrite app_length. lia. Qed.
Lemma separated_length l : is_bytes l -> 3 * zlen l - 2 <= zlen (separated l) <= 5 * zlen l.
Proof.
  intro H. induction H as [|a l Ha Hl IH]; [cbn; lia|].
  assert (L : 1 <= zlen (decimal a) <= 3) by (apply decimal_length; [unfold is_byte in Ha; lia|lia]).
  destruct l as [|b l]; [cbn [separated]; unfold zlen at 1 4; cbn [length]; lia|].
  change (separated (a :: b :: l)) with (decimal a ++ text ", " ++ separated (b :: l)). rewrite !zlen_app.
  change (zlen (text ", ")) with 2. unfold zlen in *. cbn [length] in *. lia.
Qed.

Definition modest (n : Z) (e : parse_error) : Prop :=
  match e with
  | ENom i _ => is_bytes i /\ zlen i <= n
  | EUtf8 p l => 0 <= p < 10 ^ 5 /\ match l with Some k => 0 <= k < 10 ^ 5 | None => True end
  | EDwordToUsize d | EInvalidFrameSize d | EInvalidChunkSize d | EInvalidPropertyType d => 0 <= d < 10 ^ 10
  | EInvalidFrameRange a b => 0 <= a < 10 ^ 5 /\ 0 <= b < 10 ^ 5
  | _ => True
  end.
Ltac lengths := repeat rewrite zlen_app; repeat match goal with
  | |- context [zlen (text ?s)] => let v := eval vm_compute in (zlen (text s)) in change (zlen (text s)) with v
  end.
Lemma debug_length n e : 0 <= n -> modest n e -> zlen (parse_error_debug e) <= 5 * n + 83.
Proof.
  intros Hn H. destruct e; cbn [parse_error_debug modest] in *; lengths;
    try (pose proof (decimal_length _ 10 H ltac:(lia)); lia).
  - destruct H as [H1 H2]. pose proof (decimal_length _ 5 H1 ltac:(lia)). destruct error_len as [k|]; cbn [option_debug]; lengths; [|lia].
    pose proof (decimal_length _ 5 H2 ltac:(lia)). lia.
  - destruct e; unfold palette_error_debug; lengths; lia.
  - destruct H as [H1 H2]. pose proof (decimal_length _ 5 H1 ltac:(lia)). pose proof (decimal_length _ 5 H2 ltac:(lia)). lia.
  - lia.
  - destruct H as [H1 H2]. unfold slice_debug. lengths. pose proof (separated_length _ H1) as L. destruct k; unfold kind_debug; lengths; lia.
Qed.
Lemma debug_long i k : is_bytes i -> 3 * zlen i <= zlen (parse_error_debug (ENom i k)).
Proof.
  intro Hi. cbn [parse_error_debug]. unfold slice_debug. lengths. pose proof (separated_length _ Hi) as L. destruct k; unfold kind_debug; lengths; lia.
Qed.

Lemma infix_modest r i : infix r i -> is_bytes i -> is_bytes r /\ zlen r <= zlen i.
Proof.
  intros (a & b & ->) H. unfold is_bytes in *. rewrite !Forall_app in H. split; [tauto|]. rewrite !zlen_app. unfold zlen. lia.
Qed.
Lemma field_infix i k n : infix (field i k n) i.
Proof.
  unfold field. exists (firstn k i), (skipn n (skipn k i)). rewrite firstn_skipn. symmetry. apply firstn_skipn.
Qed.
Lemma fault_modest s p l : u16 (zlen s) -> utf8_fault s p l -> modest 0 (EUtf8 p l).
Proof.
  intros Hs (u & v & -> & Hv & <- & _ & _ & b & t & -> & _ & _ & ->). unfold u16, uint in Hs. rewrite !zlen_app in Hs.
  assert (0 <= zlen u /\ 0 <= zlen b /\ 0 <= zlen t) by (unfold zlen; lia). cbn [modest]. split; [lia|]. destruct t; [exact I|lia].
Qed.
Lemma modest_mono n m e : n <= m -> modest n e -> modest m e.
Proof. intros H. destruct e; cbn [modest]; try tauto. intros [A B]. split; [exact A|lia]. Qed.

Lemma explained_modest r i x : infix r i -> is_bytes i -> explained r x -> modest (zlen i) x.
Proof.
  intros Hr Hi H. destruct (infix_modest r i Hr Hi) as [Br Lr]. destruct x; cbn [explained] in H; try contradiction.
  - destruct H as (s & Hs & Hf & _). eapply modest_mono; [|eapply fault_modest; eassumption]. unfold zlen. lia.
  - destruct k; try contradiction. destruct (infix_modest _ _ H Br). cbn [modest]. split; [assumption|lia].
Qed.
Lemma error_modest c i e : cfg_ok c -> is_bytes i -> addressable c i -> parse_file c i = Err e ->
  match e with NError x => modest (zlen i) x | NFailure x => modest (zlen i) x end.
Proof.
  intros Hc Hi Ha H. destruct e as [x|x].
  - apply file_error_iff in H; [|assumption..]. destruct (error_cases c i x Hc Hi Ha H) as [G|[(r & G1 & _ & G)|(fs & r & G1 & _ & _ & _ & ->)]].
    + assert (F : forall k n m, field i k n = m -> is_bytes m /\ zlen m <= zlen i) by (intros k n m <-; apply infix_modest; [apply field_infix|exact Hi]).
      destruct G as [(_ & ->)|[(_ & _ & ->)|[(_ & _ & _ & ->)|(_ & _ & _ & _ & ->)]]]; cbn [modest]; try (eapply F; reflexivity). split; [exact Hi|lia].
    + destruct G1 as (h & e1 & e2 & _ & _ & Ei). assert (Hr : infix r i) by (exists (e1 ++ e2), []; rewrite app_nil_r, <- app_assoc; exact Ei).
      destruct G as [G|(size & r' & after & -> & _ & _ & _ & ->)]; [now apply (explained_modest r i)|].
      cbn [modest]. apply infix_modest; [|exact Hi]. destruct Hr as (u & v & ->). exists (u ++ le 4 size), (after ++ v). now rewrite <- !app_assoc.
    + destruct G1 as (h & e1 & e2 & _ & _ & Ei). cbn [modest]. apply infix_modest; [|exact Hi]. exists (e1 ++ e2), []. rewrite app_nil_r, <- app_assoc. exact Ei.
  - apply file_failure_iff in H; [|assumption..]. destruct H as [H|(raw & _ & [(e & _ & ->)|(pal & b & y & a & _ & _ & _ & _ & ->)])]; [|exact I|exact I].
    unfold u16, u32, uint in *. destruct H; cbn [modest]; try exact I; unfold u16, u32, uint in *; lia.
Qed.

Lemma message_length c i e : cfg_ok c -> is_bytes i -> addressable c i -> parse_file c i = Err e -> zlen (nom_err_display e) <= 5 * zlen i + 100.
Proof.
  intros Hc Hi Ha H. pose proof (error_modest c i e Hc Hi Ha H) as M. destruct e; cbn [nom_err_display]; lengths;
  (pose proof (debug_length (zlen i) _ ltac:(unfold zlen; lia) M); lia).
Qed.
Lemma message_long c i f fs r x : cfg_ok c -> is_bytes i -> addressable c i ->
  at_frame c i (f :: fs) r -> parse_raw_file c i = Err (NError x) ->
  exists fs' r' e, at_frame c i fs' r' /\ fs' <> [] /\ ~ starts_frame c r' /\ load c i = Err e /\ 3 * zlen r' <= zlen (message e).
Proof.
  intros Hc Hi Ha Hat H. destruct (later_error c i f fs r x Hc Hi Ha Hat H) as (fs' & r' & G1 & G2 & _ & G4 & ->).
  exists fs', r', (LParse (NError (ENom r' KEof))). split; [exact G1|]. split; [exact G2|]. split; [exact G4|].
  split; [now apply raw_err_load|]. cbn [message nom_err_display]. lengths.
  assert (Hr : is_bytes r').
  { destruct G1 as (h & e1 & e2 & _ & _ & ->). unfold is_bytes in *. rewrite !Forall_app in Hi. tauto. }
  pose proof (debug_long r' KEof Hr). lia.
Qed.

Lemma string_fault s r p l : u16 (zlen s) -> parse_string (le 2 (zlen s) ++ s ++ r) = Err (NError (EUtf8 p l)) <-> utf8_fault s p l.
Proof.
  intro Hs. unfold parse_string, flat_map_p. rewrite word_app by exact Hs. cbn [bind]. rewrite take_app by reflexivity. cbn [bind].
  rewrite <- from_utf8_fault. destruct (from_utf8 s) as [[q m]|]; split; intro H; try discriminate; [injection H as -> ->|injection H as -> ->]; reflexivity.
Qed.
