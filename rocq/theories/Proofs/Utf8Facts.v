(** The validator accepts exactly the encodings of scalar values. *)
From Verif.Model Require Import Base Utf8.
From Verif.Spec Require Import Utf8Spec.
From Coq Require Import ZifyBool.
Local Ltac Zify.zify_post_hook ::= Z.div_mod_to_equations.

(** Validity only *)
Fixpoint utf8_ok (l : bytes) : bool :=
  match l with
  | [] => true
  | a :: l1 =>
      if in_range 0 127 a then utf8_ok l1
      else match l1 with
      | [] => false
      | b :: l2 =>
          if in_range 194 223 a then cont b && utf8_ok l2
          else match l2 with
          | [] => false
          | c :: l3 =>
              if ((a =? 224) && in_range 160 191 b) || (in_range 225 236 a && cont b)
                 || ((a =? 237) && in_range 128 159 b) || (in_range 238 239 a && cont b)
              then cont c && utf8_ok l3
              else match l3 with
              | [] => false
              | d :: l4 =>
                  if ((a =? 240) && in_range 144 191 b) || (in_range 241 243 a && cont b)
                     || ((a =? 244) && in_range 128 143 b)
                  then cont c && cont d && utf8_ok l4
                  else false
              end
          end
      end
  end.

Lemma in_range_true lo hi b : in_range lo hi b = true <-> lo <= b <= hi.
Proof. unfold in_range. lia. Qed.

Lemma utf8_encode_app c s : scalar c -> utf8_ok (encode_scalar c ++ s) = utf8_ok s.
Proof.
  intro Hc. unfold encode_scalar.
  destruct (c <? 0x80) eqn:H1.
  { cbn [app utf8_ok]. destruct (in_range 0 127 c) eqn:E; [reflexivity|].
    unfold scalar, in_range in *. lia. }
  destruct (c <? 0x800) eqn:H2.
  { cbn [app utf8_ok].
    destruct (in_range 0 127 (0xC0 + c / 64)) eqn:E1; [unfold scalar, in_range in *; lia|].
    destruct (in_range 194 223 (0xC0 + c / 64)) eqn:E2; [|unfold scalar, in_range in *; lia].
    replace (cont (0x80 + c mod 64)) with true; [reflexivity|]. unfold cont, in_range. lia. }
  destruct (c <? 0x10000) eqn:H3.
  { cbn [app utf8_ok].
    destruct (in_range 0 127 (0xE0 + c / 4096)) eqn:E1; [unfold scalar, in_range in *; lia|].
    destruct (in_range 194 223 (0xE0 + c / 4096)) eqn:E2; [unfold scalar, in_range in *; lia|].
    replace (cont (0x80 + c mod 64)) with true by (unfold cont, in_range; lia).
    match goal with |- (if ?b then _ else _) = _ => destruct b eqn:E3 end; [reflexivity|].
    exfalso. unfold scalar, cont, in_range in *.
    apply orb_false_elim in E3 as [E3 E6]. apply orb_false_elim in E3 as [E3 E5].
    apply orb_false_elim in E3 as [E3 E4].
    clear E1 E2. lia. }
  cbn [app utf8_ok].
  destruct (in_range 0 127 (0xF0 + c / 262144)) eqn:E1; [unfold scalar, in_range in *; lia|].
  destruct (in_range 194 223 (0xF0 + c / 262144)) eqn:E2; [unfold scalar, in_range in *; lia|].
  replace (cont (0x80 + c mod 64)) with true by (unfold cont, in_range; lia).
  replace (cont (0x80 + c / 64 mod 64)) with true by (unfold cont, in_range; lia).
  match goal with |- (if ?b then _ else _) = _ => destruct b eqn:E3 end.
  { exfalso. clear E1 E2. unfold scalar, cont, in_range in *. lia. }
  match goal with |- (if ?b then _ else _) = _ => destruct b eqn:E4 end; [reflexivity|].
  exfalso. clear E1 E2 E3. unfold scalar, cont, in_range in *. lia.
Qed.

Lemma utf8_ok_encode cs : Forall scalar cs -> utf8_ok (flat_map encode_scalar cs) = true.
Proof.
  induction 1 as [|c cs Hc _ IH]; [reflexivity|].
  cbn [flat_map]. rewrite utf8_encode_app by exact Hc. exact IH.
Qed.

Lemma is_utf8_cons c e s :
  scalar c -> encode_scalar c = e -> is_utf8 s -> is_utf8 (e ++ s).
Proof.
  intros Hc <- (cs & Hcs & ->). exists (c :: cs). split; [constructor; assumption|reflexivity].
Qed.

Local Ltac enc_eq :=
  unfold encode_scalar;
  repeat match goal with |- context [if ?b then _ else _] => destruct b eqn:? end;
  try (exfalso; lia); repeat f_equal; try lia.

Lemma utf8_ok_is_utf8 s : utf8_ok s = true -> is_utf8 s.
Proof.
  remember (length s) as n eqn:Hn. assert (Hle : (length s <= n)%nat) by lia. clear Hn.
  revert s Hle. induction n as [|n IH]; intros s Hle H.
  { destruct s; [|cbn in Hle; lia]. exists []. split; [constructor|reflexivity]. }
  destruct s as [|a s1]; [exists []; split; [constructor|reflexivity]|].
  cbn [utf8_ok] in H. cbn [length] in Hle.
  destruct (in_range 0 127 a) eqn:E1.
  { apply in_range_true in E1. change (a :: s1) with ([a] ++ s1).
    apply is_utf8_cons with a; [unfold scalar; lia| |apply IH; [lia|exact H]].
    enc_eq. }
  destruct s1 as [|b s2]; [discriminate|]. cbn [length] in Hle.
  destruct (in_range 194 223 a) eqn:E2.
  { apply andb_prop in H as [Hb H]. unfold cont in Hb. apply in_range_true in E2, Hb.
    change (a :: b :: s2) with ([a; b] ++ s2).
    apply is_utf8_cons with ((a - 192) * 64 + (b - 128));
      [unfold scalar; lia| |apply IH; [lia|exact H]].
    enc_eq. }
  destruct s2 as [|c s3]; [discriminate|]. cbn [length] in Hle.
  match type of H with (if ?b then _ else _) = _ => destruct b eqn:E3 end.
  { apply andb_prop in H as [Hc H]. unfold cont in *. apply in_range_true in Hc.
    change (a :: b :: c :: s3) with ([a; b; c] ++ s3).
    clear E1 E2. unfold in_range in E3.
    apply is_utf8_cons with ((a - 224) * 4096 + (b - 128) * 64 + (c - 128));
      [unfold scalar; lia| |apply IH; [lia|exact H]].
    assert (224 <= a <= 239 /\ 128 <= b <= 191 /\ (a = 224 -> 160 <= b)) as (Ha & Hb & Hab)
      by lia.
    clear E3 IH H Hle.
    enc_eq. }
  destruct s3 as [|d s4]; [discriminate|]. cbn [length] in Hle.
  match type of H with (if ?b then _ else _) = _ => destruct b eqn:E4 end; [|discriminate].
  apply andb_prop in H as [Hcd H]. apply andb_prop in Hcd as [Hc Hd].
  unfold cont in *. apply in_range_true in Hc, Hd.
  change (a :: b :: c :: d :: s4) with ([a; b; c; d] ++ s4).
  clear E1 E2 E3. unfold in_range in E4.
  assert (240 <= a <= 244 /\ 128 <= b <= 191 /\ (a = 240 -> 144 <= b) /\ (a = 244 -> b <= 143))
    as (Ha & Hb & Hab & Hab') by lia.
  clear E4.
  apply is_utf8_cons with ((a - 240) * 262144 + (b - 128) * 4096 + (c - 128) * 64 + (d - 128));
    [unfold scalar; lia| |apply IH; [lia|exact H]].
  clear IH H Hle.
  enc_eq.
Qed.

Lemma utf8_ok_iff s : utf8_ok s = true <-> is_utf8 s.
Proof.
  split; [apply utf8_ok_is_utf8|]. intros (cs & Hcs & ->). apply utf8_ok_encode, Hcs.
Qed.

(** ** The position of an error *)
Lemma utf8_strip cs s : Forall scalar cs -> utf8_ok (flat_map encode_scalar cs ++ s) = utf8_ok s.
Proof. induction 1 as [|c cs Hc _ IH]; [reflexivity|]. cbn [flat_map]. rewrite <- app_assoc, utf8_encode_app by exact Hc. exact IH. Qed.
Lemma utf8_suffix u v : is_utf8 u -> (is_utf8 (u ++ v) <-> is_utf8 v).
Proof. intros (cs & Hcs & ->). rewrite <- !utf8_ok_iff, utf8_strip by exact Hcs. tauto. Qed.
Lemma utf8_head s : is_utf8 s -> s <> [] -> exists c t, scalar c /\ s = encode_scalar c ++ t.
Proof. intros ([|c cs] & Hcs & ->) Hn; [contradiction|]. inversion Hcs; subst. exists c, (flat_map encode_scalar cs). auto. Qed.
Lemma begins_prefix a b : begins (a ++ b) -> begins a.
Proof. intros (c & t & Hc & E). exists c, (b ++ t). now rewrite app_assoc. Qed.

(** What is wrong at the start of [v] *)
Definition fault_here (v : bytes) (e : option Z) : Prop :=
  v <> [] /\ (forall c t, scalar c -> v <> encode_scalar c ++ t) /\
  exists b t, v = b ++ t /\ begins b /\ (forall y t', t = y :: t' -> ~ begins (b ++ [y])) /\
    e = match t with [] => None | _ => Some (Z.max 1 (zlen b)) end.
Ltac split_scalar c := unfold encode_scalar;
  destruct (c <? 0x80) eqn:?; [|destruct (c <? 0x800) eqn:?; [|destruct (c <? 0x10000) eqn:?]].
(** The four forms of an encoding *)
Definition form (l : bytes) : Prop :=
  match l with
  | [a] => in_range 0 127 a = true
  | [a; b] => in_range 194 223 a = true /\ cont b = true
  | [a; b; c] => in_range 224 239 a = true /\ second3 a b = true /\ cont c = true
  | [a; b; c; d] => in_range 240 244 a = true /\ second4 a b = true /\ cont c = true /\ cont d = true
  | _ => False
  end.
Lemma form_encode c : scalar c -> form (encode_scalar c).
Proof.
  intro Hc. unfold scalar in Hc. split_scalar c; cbn [form].
  - unfold in_range. lia.
  - unfold cont, in_range. split; lia.
  - assert (0xE0 <= 0xE0 + c / 4096 <= 0xEF) by lia. split; [unfold in_range; lia|]. split; [|unfold cont, in_range; lia].
    unfold second3, cont, in_range. assert (0 <= c / 64 mod 64 < 64) by lia.
    assert (c / 4096 = 0 -> 32 <= c / 64 mod 64) by lia. assert (c / 4096 = 13 -> c / 64 mod 64 < 32) by lia. lia.
  - assert (0 <= c / 262144 <= 4) by lia. split; [unfold in_range; lia|].
    assert (0 <= c / 4096 mod 64 < 64) by lia. split; [|split; unfold cont, in_range; lia].
    assert (c / 262144 = 0 -> 16 <= c / 4096 mod 64) by lia. assert (c / 262144 = 4 -> c / 4096 mod 64 < 16) by lia.
    unfold second4, cont, in_range. lia.
Qed.
Lemma encode_form l : form l -> exists c, scalar c /\ encode_scalar c = l.
Proof.
  intro H. assert (U : utf8_ok l = true).
  { destruct l as [|a [|b [|c [|d [|e l]]]]]; cbn [form] in H; try contradiction.
    - cbn [utf8_ok]. now rewrite H.
    - destruct H as [H1 H2]. cbn [utf8_ok]. rewrite H1, H2. unfold in_range in *. replace ((0 <=? a) && (a <=? 127)) with false by lia. reflexivity.
    - destruct H as (H1 & H2 & H3). unfold second3 in H2. cbn [utf8_ok]. rewrite H2, H3. unfold in_range in *.
      replace ((0 <=? a) && (a <=? 127)) with false by lia. replace ((194 <=? a) && (a <=? 223)) with false by lia. reflexivity.
    - destruct H as (H1 & H2 & H3 & H4). unfold second4 in H2. cbn [utf8_ok]. rewrite H2, H3, H4. unfold in_range in *.
      replace ((0 <=? a) && (a <=? 127)) with false by lia. replace ((194 <=? a) && (a <=? 223)) with false by lia.
      match goal with |- (if ?b then _ else _) = _ => replace b with false by (clear H2; lia) end. reflexivity. }
  apply utf8_ok_is_utf8 in U as (cs & Hcs & E). destruct cs as [|c [|c' cs]].
  - subst l. contradiction.
  - exists c. inversion Hcs; subst. split; [assumption|]. cbn. now rewrite app_nil_r.
  - exfalso. inversion Hcs as [|? ? Hc Hcs']; subst. inversion Hcs' as [|? ? Hc' _]; subst.
    pose proof (form_encode c Hc) as F. pose proof (form_encode c' Hc') as F'. cbn [flat_map] in H.
    remember (flat_map encode_scalar cs) as r eqn:Er. clear Er.
    destruct (encode_scalar c) as [|a1 [|a2 [|a3 [|a4 [|a5 x]]]]]; cbn [form] in F; try contradiction;
    destruct (encode_scalar c') as [|b1 [|b2 [|b3 [|b4 [|b5 y]]]]]; cbn [form] in F'; try contradiction;
    destruct r as [|r1 [|r2 [|r3 r]]]; cbn [app form] in H; try contradiction; unfold in_range in *; lia.
Qed.
Lemma begins_form b : begins b <-> exists t, form (b ++ t).
Proof.
  split.
  - intros (c & t & Hc & E). exists t. rewrite <- E. now apply form_encode.
  - intros (t & H). apply encode_form in H as (c & Hc & E). now exists c, t.
Qed.

Ltac no_form F l := let x := fresh in
  destruct l as [|? [|? [|? [|? [|? x]]]]]; cbn [form app] in F; try contradiction.
Ltac begun := match goal with
  | |- begins [] => apply begins_form; exists [0]; reflexivity
  | |- begins [?a] => apply begins_form; first [exists [128]; cbn [app form]; now rewrite ?andb_true_iff
                                               | exists [if a =? 224 then 160 else 128; 128]; cbn [app form]; unfold second3, cont, in_range in *; destruct (a =? 224) eqn:?; repeat split; lia
                                               | exists [if a =? 240 then 144 else 128; 128; 128]; cbn [app form]; unfold second4, cont, in_range in *; destruct (a =? 240) eqn:?; repeat split; lia]
  | |- begins [?a; ?b] => apply begins_form; first [exists [128]; cbn [app form]; repeat split; assumption || reflexivity | exists [128; 128]; cbn [app form]; repeat split; assumption || reflexivity]
  | |- begins [?a; ?b; ?c] => apply begins_form; exists [128]; cbn [app form]; repeat split; assumption || reflexivity
  end.
Ltac lost := repeat match goal with H : _ /\ _ |- _ => destruct H end; first [congruence | unfold second3, second4, cont, in_range in *; lia].
(** The fault is after [b]. *)
Ltac fault b := match goal with |- fault_here ?v _ =>
  split; [discriminate|]; split;
  [ let c := fresh in let t := fresh in let Hc := fresh in let F := fresh "F" in let E := fresh "E" in
    intros c t Hc E; pose proof (form_encode c Hc) as F; revert F E; generalize (encode_scalar c); clear c Hc;
    let l := fresh "l" in intros l F E; no_form F l; cbn [app] in E; try discriminate E; injection E; intros; subst; lost
  | exists b; eexists; split; [cbn [app]; reflexivity|]; split;
    [begun|split; [|reflexivity]];
    let y := fresh in let t' := fresh in let E := fresh in let B := fresh "B" in let l := fresh "l" in let F := fresh "F" in
    intros y t' E B; try discriminate E; injection E; intros; subst; apply begins_form in B as (l & F); cbn [app] in F;
    no_form F l; lost ] end.

Lemma form_utf8 l : form l -> is_utf8 l.
Proof. intro H. apply encode_form in H as (c & Hc & <-). exists [c]. split; [now constructor|]. cbn. now rewrite app_nil_r. Qed.

Lemma utf8_error_cases k : forall s n, (length s <= k)%nat ->
  match utf8_error n s with
  | None => is_utf8 s
  | Some (p, e) => exists u v, s = u ++ v /\ is_utf8 u /\ p = n + zlen u /\ fault_here v e
  end.
Proof.
  induction k as [|k IH]; intros s n Hk.
  { destruct s; [|cbn in Hk; lia]. cbn. exists []. split; [constructor|reflexivity]. }
  assert (Step : forall l r, form l -> (length r <= k)%nat ->
    match utf8_error (n + zlen l) r with
    | None => is_utf8 (l ++ r)
    | Some (p, e) => exists u v, l ++ r = u ++ v /\ is_utf8 u /\ p = n + zlen u /\ fault_here v e
    end).
  { intros l r Hl Hr. apply form_utf8 in Hl. specialize (IH r (n + zlen l) Hr). destruct (utf8_error _ r) as [[p e]|].
    - destruct IH as (u & v & -> & Hu & -> & Hf). exists (l ++ u), v. rewrite app_assoc. split; [reflexivity|]. split; [now apply utf8_suffix|].
      split; [|exact Hf]. unfold zlen. rewrite app_length. lia.
    - now apply utf8_suffix. }
  assert (Here : forall v e, fault_here v e -> exists u v0, v = u ++ v0 /\ is_utf8 u /\ n = n + zlen u /\ fault_here v0 e).
  { intros v e H. exists [], v. split; [reflexivity|]. split; [exists []; split; [constructor|reflexivity]|]. split; [cbn; lia|exact H]. }
  destruct s as [|a l1]; [exists []; split; [constructor|reflexivity]|].
  cbn [utf8_error]. cbn [length] in Hk.
  destruct (in_range 0 127 a) eqn:E1; [apply (Step [a] l1 E1); lia|].
  destruct (in_range 194 223 a) eqn:E2.
  { destruct l1 as [|b l2]; [apply Here; fault [a]|]. destruct (cont b) eqn:Eb; [apply (Step [a; b] l2 (conj E2 Eb)); cbn [length] in Hk; lia|].
    apply Here. fault [a]. }
  destruct (in_range 224 239 a) eqn:E3.
  { destruct l1 as [|b l2]; [apply Here; fault [a]|]. destruct (second3 a b) eqn:Eb; [|apply Here; fault [a]].
    destruct l2 as [|c l3]; [apply Here; fault [a; b]|]. destruct (cont c) eqn:Ec; [|apply Here; fault [a; b]].
    apply (Step [a; b; c] l3 (conj E3 (conj Eb Ec))). cbn [length] in Hk. lia. }
  destruct (in_range 240 244 a) eqn:E4.
  { destruct l1 as [|b l2]; [apply Here; fault [a]|]. destruct (second4 a b) eqn:Eb; [|apply Here; fault [a]].
    destruct l2 as [|c l3]; [apply Here; fault [a; b]|]. destruct (cont c) eqn:Ec; [|apply Here; fault [a; b]].
    destruct l3 as [|d l4]; [apply Here; fault [a; b; c]|]. destruct (cont d) eqn:Ed; [|apply Here; fault [a; b; c]].
    apply (Step [a; b; c; d] l4 (conj E4 (conj Eb (conj Ec Ed)))). cbn [length] in Hk. lia. }
  apply Here. fault (@nil Z).
Qed.

Lemma utf8_not_here v : v <> [] -> (forall c t, scalar c -> v <> encode_scalar c ++ t) <-> (forall w x, v = w ++ x -> w <> [] -> ~ is_utf8 w).
Proof.
  intro Hv. split.
  - intros H w x -> Hw Hu. destruct (utf8_head w Hu Hw) as (c & t & Hc & ->). apply (H c (t ++ x) Hc). now rewrite app_assoc.
  - intros H c t Hc ->. apply (H (encode_scalar c) t eq_refl).
    + intro E. pose proof (form_encode c Hc) as F. rewrite E in F. exact F.
    + exists [c]. split; [now constructor|]. cbn. now rewrite app_nil_r.
Qed.

Lemma from_utf8_valid s : from_utf8 s = None <-> is_utf8 s.
Proof.
  unfold from_utf8. pose proof (utf8_error_cases (length s) s 0 (le_n _)) as H. destruct (utf8_error 0 s) as [[p e]|]; [|tauto].
  split; [discriminate|]. intro Hs. exfalso. destruct H as (u & v & -> & Hu & _ & Hv & Hn & _). apply utf8_suffix in Hs; [|exact Hu].
  apply (proj1 (utf8_not_here v Hv) Hn v []); [now rewrite app_nil_r|exact Hv|exact Hs].
Qed.
Lemma utf8_fault_here s p e : utf8_fault s p e <-> exists u v, s = u ++ v /\ is_utf8 u /\ p = zlen u /\ fault_here v e.
Proof.
  split.
  - intros (u & v & -> & Hv & <- & Hu & Hn & Hb). exists u, v. split; [reflexivity|]. split; [exact Hu|]. split; [reflexivity|].
    split; [exact Hv|]. split; [|exact Hb]. apply utf8_not_here; [exact Hv|]. intros w x E Hw Hs. apply (Hn w x E Hw). now apply utf8_suffix.
  - intros (u & v & -> & Hu & -> & Hv & Hn & Hb). exists u, v. split; [reflexivity|]. split; [exact Hv|]. split; [reflexivity|]. split; [exact Hu|].
    split; [|exact Hb]. intros w x E Hw Hs. apply (utf8_suffix u w Hu) in Hs. exact (proj1 (utf8_not_here v Hv) Hn w x E Hw Hs).
Qed.

Lemma app_cases {A} (a b c d : list A) : a ++ b = c ++ d -> (exists x, c = a ++ x /\ b = x ++ d) \/ (exists x, a = c ++ x /\ d = x ++ b).
Proof.
  revert c. induction a as [|y a IH]; intros c E; [left; exists c; auto|]. destruct c as [|z c]; [right; exists (y :: a); auto|].
  cbn [app] in E. injection E as -> E. destruct (IH c E) as [(x & -> & ->)|(x & -> & ->)]; [left|right]; exists x; auto.
Qed.
Lemma fault_unique s p e p' e' : utf8_fault s p e -> utf8_fault s p' e' -> p = p' /\ e = e'.
Proof.
  intros (u & v & E & Hv & <- & Hu & Hn & b & t & Ev & Hb & Ht & ->) (u' & v' & E' & Hv' & <- & Hu' & Hn' & b' & t' & Ev' & Hb' & Ht' & ->).
  assert (u = u' /\ v = v') as [-> ->].
  { rewrite E in E'. apply app_cases in E' as [(x & -> & ->)|(x & -> & ->)].
    - destruct x as [|y x]; [rewrite app_nil_r; auto|]. exfalso. exact (Hn (y :: x) v' eq_refl ltac:(discriminate) Hu').
    - destruct x as [|y x]; [rewrite app_nil_r; auto|]. exfalso. exact (Hn' (y :: x) v eq_refl ltac:(discriminate) Hu). }
  split; [reflexivity|]. rewrite Ev in Ev'. assert (b = b' /\ t = t') as [-> ->]; [|reflexivity].
  apply app_cases in Ev' as [(x & -> & ->)|(x & -> & ->)].
  - destruct x as [|y x]; [rewrite app_nil_r; auto|]. exfalso. apply (Ht y (x ++ t') eq_refl). apply (begins_prefix _ x). now rewrite <- app_assoc.
  - destruct x as [|y x]; [rewrite app_nil_r; auto|]. exfalso. apply (Ht' y (x ++ t) eq_refl). apply (begins_prefix _ x). now rewrite <- app_assoc.
Qed.
Lemma from_utf8_fault s p e : from_utf8 s = Some (p, e) <-> utf8_fault s p e.
Proof.
  pose proof (utf8_error_cases (length s) s 0 (le_n _)) as H. split.
  - intro E. unfold from_utf8 in E. rewrite E in H. apply utf8_fault_here. exact H.
  - intro F. unfold from_utf8. destruct (utf8_error 0 s) as [[p' e']|] eqn:E.
    + assert (F' : utf8_fault s p' e') by (apply utf8_fault_here; exact H). destruct (fault_unique _ _ _ _ _ F F') as [-> ->]. reflexivity.
    + exfalso. destruct F as (u & v & -> & Hv & _ & _ & Hn & _). exact (Hn v [] (eq_sym (app_nil_r v)) Hv H).
Qed.
