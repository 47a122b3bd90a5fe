(** The [Debug] texts of the loader's errors. *)
From Coq Require Import String.
From Verif.Model Require Import Loader Messages DebugTexts.
From Verif.Spec Require Import Bytes Messages.
From Verif.Proofs Require Import MessageProps DisplayProps.
Local Open Scope Z_scope.
Local Open Scope list_scope.

Definition plain (l : bytes) : Prop := Forall (fun x => 32 <= x <= 126 /\ x <> 34 /\ x <> 92) l.
Lemma plain_app a b : plain a -> plain b -> plain (a ++ b).
Proof. intros. now apply Forall_app. Qed.
Lemma plain_decimal z : plain (decimal z).
Proof. eapply Forall_impl; [|apply decimal_numeral]. intros a [->|H]; [lia|unfold is_digit in H; lia]. Qed.
Lemma plain_check l : forallb (fun c => (32 <=? c) && (c <=? 126) && negb (c =? 34) && negb (c =? 92)) l = true -> plain l.
Proof. intro H. apply Forall_forall. intros x Hx. rewrite forallb_forall in H. specialize (H x Hx). lia. Qed.
Ltac plainly := repeat apply plain_app; try apply plain_decimal; try (apply plain_check; reflexivity).
Lemma plain_separated l : plain (separated l).
Proof. induction l as [|a [|b l] IH]; cbn [separated]; [constructor|apply plain_decimal|]. plainly. exact IH. Qed.
Lemma plain_debug e : plain (parse_error_debug e).
Proof.
  destruct e; cbn [parse_error_debug]; plainly.
  - destruct error_len; cbn [option_debug]; plainly.
  - destruct e; plainly.
  - unfold slice_debug. plainly. apply plain_separated.
  - destruct k; plainly.
Qed.
Lemma message_plain e : plain (message e).
Proof. destruct e as [[x|x]| |]; cbn [message nom_err_display]; plainly; apply plain_debug. Qed.

Lemma char_plain x : 32 <= x <= 126 /\ x <> 34 /\ x <> 92 -> char_debug x = [x].
Proof.
  intros H. unfold char_debug. replace (x =? 0) with false by lia. replace (x =? 9) with false by lia.
  replace (x =? 10) with false by lia. replace (x =? 13) with false by lia. replace (x =? 34) with false by lia.
  replace (x =? 92) with false by lia. replace (x <? 32) with false by lia. replace (x =? 127) with false by lia. reflexivity.
Qed.
Lemma str_plain l : plain l -> str_debug l = [34] ++ l ++ [34].
Proof.
  intro H. unfold str_debug. f_equal. f_equal. induction H as [|x l Hx _ IH]; [reflexivity|].
  cbn [flat_map]. rewrite (char_plain x Hx), IH. reflexivity.
Qed.

Lemma sprite_debug e : load_sprite_error_debug e = text "Parse { message: " ++ [34] ++ message e ++ [34] ++ text " }" /\
  printable (load_sprite_error_debug e).
Proof.
  assert (E : load_sprite_error_debug e = text "Parse { message: " ++ [34] ++ message e ++ [34] ++ text " }").
  { unfold load_sprite_error_debug. rewrite (str_plain _ (message_plain e)), <- !app_assoc. reflexivity. }
  split; [exact E|]. rewrite E. repeat apply printable_app; try (apply printable_check; reflexivity).
  eapply Forall_impl; [|apply (message_plain e)]. intros a [H _]. exact H.
Qed.
Lemma sprite_debug_inj e e' : load_sprite_error_debug e = load_sprite_error_debug e' -> e = e'.
Proof.
  rewrite (proj1 (sprite_debug e)), (proj1 (sprite_debug e')). intro H. apply app_inv_head in H. apply app_inv_head in H.
  apply app_inv_tail in H. now apply message_inj.
Qed.
Lemma image_debug_inj e e' : load_image_error_debug e = load_image_error_debug e' -> e = e'.
Proof. destruct e, e'; intro H; first [reflexivity|vm_compute in H; discriminate H]. Qed.

(** Any ASCII text *)
Definition ascii := map Z.of_nat (seq 0 128).
Lemma in_ascii x : 0 <= x < 128 -> In x ascii.
Proof. intro H. unfold ascii. rewrite in_map_iff. exists (Z.to_nat x). split; [lia|]. apply in_seq. lia. Qed.
Definition apart (a b : bytes) : bool :=
  let n := Nat.min (length a) (length b) in negb (if list_eq_dec Z.eq_dec (firstn n a) (firstn n b) then true else false).
Lemma apart_app a b r r' : apart a b = true -> a ++ r <> b ++ r'.
Proof.
  unfold apart. destruct (list_eq_dec _ _ _) as [|N]; [discriminate|]. intros _ E. apply N. set (n := Nat.min _ _).
  assert (K : forall x t : bytes, (n <= length x)%nat -> firstn n (x ++ t) = firstn n x).
  { intros x t L. rewrite firstn_app. replace (n - length x)%nat with 0%nat by lia. cbn [firstn]. apply app_nil_r. }
  rewrite <- (K a r), <- (K b r') by (unfold n; lia). now rewrite E.
Qed.
Lemma escapes_apart : forallb (fun x => negb (34 =? hd 0 (char_debug x)) &&
  forallb (fun y => (x =? y) || apart (char_debug x) (char_debug y)) ascii) ascii = true.
Proof. vm_compute. reflexivity. Qed.
Lemma escapes_printable : forallb (fun x => forallb (fun c => (32 <=? c) && (c <=? 126)) (char_debug x) && (0 <? zlen (char_debug x))) ascii = true.
Proof. vm_compute. reflexivity. Qed.
Lemma escaped_printable l : Forall (fun x => 0 <= x < 128) l -> printable (str_debug l).
Proof.
  intro H. unfold str_debug. apply Forall_app. split; [repeat constructor; lia|]. apply Forall_app. split; [|repeat constructor; lia].
  induction H as [|x l Hx _ IH]; [constructor|]. cbn [flat_map]. apply Forall_app. split; [|exact IH].
  pose proof escapes_printable as T. rewrite forallb_forall in T. specialize (T x (in_ascii x Hx)). apply andb_prop in T as [T _].
  rewrite forallb_forall in T. apply Forall_forall. intros a Ha. specialize (T a Ha). lia.
Qed.
Lemma escaped_inj l l' : Forall (fun x => 0 <= x < 128) l -> Forall (fun x => 0 <= x < 128) l' -> str_debug l = str_debug l' -> l = l'.
Proof.
  unfold str_debug. intros H H' E. apply app_inv_head in E. revert l' H' E.
  assert (Q : forall x t t', 0 <= x < 128 -> char_debug x ++ t <> 34 :: t').
  { intros x t t' Hx E. pose proof escapes_apart as T. rewrite forallb_forall in T. specialize (T x (in_ascii x Hx)). apply andb_prop in T as [T _].
    pose proof escapes_printable as P. rewrite forallb_forall in P. specialize (P x (in_ascii x Hx)). apply andb_prop in P as [_ P].
    destruct (char_debug x) as [|a w]; [discriminate P|]. cbn in E, T. injection E as -> _. discriminate T. }
  induction H as [|x l Hx Hl IH]; intros l' H' E; destruct H' as [|y l' Hy Hl'].
  - reflexivity.
  - cbn [flat_map app] in E. rewrite <- app_assoc in E. symmetry in E. now apply Q in E.
  - cbn [flat_map app] in E. rewrite <- app_assoc in E. now apply Q in E.
  - cbn [flat_map] in E. rewrite <- !app_assoc in E. pose proof escapes_apart as T. rewrite forallb_forall in T.
    specialize (T x (in_ascii x Hx)). apply andb_prop in T as [_ T]. rewrite forallb_forall in T. specialize (T y (in_ascii y Hy)).
    apply orb_prop in T as [T|T]; [|now apply (apart_app _ _ _ _ T) in E].
    apply Z.eqb_eq in T as <-. apply app_inv_head in E. f_equal. now apply IH.
Qed.
