(** The soft light function on all pairs of bytes, by computation. *)
From Verif.Model Require Import Blend.
From Verif.Spec Require Import Bytes BlendSpec.

Definition le_sqrtb (x y z : Z) : bool := (x <=? 0) || (x * x <=? y * y * z).
Definition roundedb (n d q : Z) : bool := (d * (2 * q - 1) <=? 2 * n) && (2 * n <? d * (2 * q + 1)).
Definition soft_light_valueb (b s q : Z) : bool :=
  if 2 * s <=? 255 then roundedb (255 * 255 * b - (255 - 2 * s) * b * (255 - b)) (255 * 255) q
  else if 4 * b <=? 255 then
    roundedb (255 * 255 * 255 * b +
             (2 * s - 255) * (((16 * b - 12 * 255) * b + 4 * 255 * 255) * b - 255 * 255 * b))
            (255 * 255 * 255) q
  else
    le_sqrtb (255 * (2 * q - 1 - 2 * b) + 2 * (2 * s - 255) * b) (2 * (2 * s - 255)) (255 * b) &&
    negb (le_sqrtb (255 * (2 * q + 1 - 2 * b) + 2 * (2 * s - 255) * b) (2 * (2 * s - 255)) (255 * b)).

Lemma roundedb_ok n d q : roundedb n d q = true -> rounded n d q.
Proof. unfold roundedb, rounded. lia. Qed.
Lemma soft_light_valueb_ok b s q : soft_light_valueb b s q = true -> soft_light_value b s q.
Proof.
  unfold soft_light_valueb, soft_light_value. destruct (2 * s <=? 255); [apply roundedb_ok|].
  destruct (4 * b <=? 255); [apply roundedb_ok|]. rewrite andb_true_iff, negb_true_iff. unfold le_sqrtb, le_sqrt.
  intros [H1 H2]. apply orb_false_iff in H2. apply orb_true_iff in H1. lia.
Qed.

(** What depends on [b] only and what depends on [s] only, computed once. *)
Definition back_part (b : Z) : f64 * f64 * f64 :=
  let b := fdiv (f_of_Z b) (f_of_Z 255) in
  let d := if fleb b (f_lit 1 4)
           then fmul (fadd (fmul (fsub (fmul (f_of_Z 16) b) (f_of_Z 12)) b) (f_of_Z 4)) b
           else fsqrt b in
  (b, fsub (f_of_Z 1) b, fsub d b).
Definition front_part (s : Z) : bool * f64 :=
  let s := fdiv (f_of_Z s) (f_of_Z 255) in
  if fleb s (f_lit 1 2) then (true, fsub (f_of_Z 1) (fmul (f_of_Z 2) s))
  else (false, fsub (fmul (f_of_Z 2) s) (f_of_Z 1)).
Definition combine_parts (k255 half : f64) (bp : f64 * f64 * f64) (sp : bool * f64) : Z :=
  let '(b, b', d') := bp in
  let '(low, s') := sp in
  let r := if low then fsub b (fmul (fmul s' b) b') else fadd b (fmul s' d') in
  u32_as_i32 (f_as_u32 (fadd (fmul r k255) half)).
Lemma soft_light_parts b s :
  blend_soft_light b s = combine_parts (f_of_Z 255) (f_lit 1 2) (back_part b) (front_part s).
Proof.
  unfold blend_soft_light, combine_parts, back_part, front_part. cbv zeta.
  destruct (fleb (fdiv (f_of_Z s) (f_of_Z 255)) (f_lit 1 2)); reflexivity.
Qed.

Fixpoint from (n : nat) (z : Z) : list Z := match n with O => [] | S n => z :: from n (z + 1) end.
Lemma in_from n z x : z <= x < z + Z.of_nat n -> In x (from n z).
Proof.
  revert z. induction n as [|n IH]; intros z H; [lia|]. cbn [from]. destruct (Z.eq_dec z x) as [->|Hne]; [now left|].
  right. apply IH. lia.
Qed.
Definition all_bytes : list Z := from 256 0.
Lemma in_all_bytes x : is_byte x -> In x all_bytes.
Proof. intro H. apply in_from. unfold is_byte in H. lia. Qed.

Definition table (k255 half : f64) (backs : list (Z * (f64 * f64 * f64))) (fronts : list (Z * (bool * f64))) : bool :=
  forallb (fun '(b, bp) => forallb (fun '(s, sp) =>
    let q := combine_parts k255 half bp sp in
    (0 <=? q) && (q <? 256) && soft_light_valueb b s q) fronts) backs.

Lemma table_spec k255 half backs fronts b bp s sp : table k255 half backs fronts = true ->
  In (b, bp) backs -> In (s, sp) fronts ->
  is_byte (combine_parts k255 half bp sp) /\ soft_light_value b s (combine_parts k255 half bp sp).
Proof.
  intros T Hb Hs. unfold table in T. rewrite forallb_forall in T. specialize (T _ Hb). cbv beta iota in T.
  rewrite forallb_forall in T. specialize (T _ Hs). cbv beta iota zeta in T.
  apply andb_true_iff in T. destruct T as [T T3]. split; [unfold is_byte; lia|]. now apply soft_light_valueb_ok.
Qed.

Lemma table_ok : table (f_of_Z 255) (f_lit 1 2) (map (fun b => (b, back_part b)) all_bytes)
                       (map (fun s => (s, front_part s)) all_bytes) = true.
Proof. vm_compute. reflexivity. Qed.

Lemma soft_light_ok b s : is_byte b -> is_byte s ->
  is_byte (blend_soft_light b s) /\ soft_light_value b s (blend_soft_light b s).
Proof.
  intros Hb Hs. rewrite soft_light_parts. apply (table_spec _ _ _ _ _ _ _ _ table_ok).
  - exact (in_map (fun b => (b, back_part b)) _ _ (in_all_bytes _ Hb)).
  - exact (in_map (fun s => (s, front_part s)) _ _ (in_all_bytes _ Hs)).
Qed.
