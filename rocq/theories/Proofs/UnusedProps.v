(** Functions of the crate that nothing in it calls: [parse_blend_mode], and the
    way of ordering three channels that [set_saturation] does not use. *)
From Coq Require Import Lia Permutation.
From Verif.Model Require Import Enums Blend.
From Verif.Spec Require Import Bytes Format.
From Verif.Proofs Require Import ParseLib ChunkFacts HslFacts HslProps.

Lemma perm_decide : forall i j k : nat, (i < 3)%nat -> (j < 3)%nat -> (k < 3)%nat ->
  Permutation [i; j; k] [0; 1; 2]%nat <-> i <> j /\ i <> k /\ j <> k.
Proof.
  intros i j k Hi Hj Hk. split.
  - intros P. apply Permutation_sym, Permutation_NoDup in P;
      [|repeat constructor; cbn; intuition discriminate].
    inversion P as [|? ? N1 P1]; subst. inversion P1 as [|? ? N2 P2]; subst. cbn in N1, N2.
    intuition congruence.
  - intros (A & B & C). apply NoDup_Permutation_bis.
    + repeat constructor; cbn; intuition congruence.
    + cbn. lia.
    + intros x Hx. cbn in *. lia.
Qed.

Lemma sort3_sorts : forall r g b, is_byte r -> is_byte g -> is_byte b ->
  exists i j k, static_sort3 (f_of_Z r) (f_of_Z g) (f_of_Z b) = (i, j, k) /\
    Permutation [i; j; k] [0; 1; 2]%nat /\
    nth i [r; g; b] 0 <= nth j [r; g; b] 0 <= nth k [r; g; b] 0.
Proof.
  intros r g b Hr Hg Hb. apply byte_small in Hr, Hg, Hb.
  unfold static_sort3. cbn [fst snd].
  rewrite fltb_int by assumption.
  destruct (Z.ltb_spec r g); cbn [fst snd]; rewrite fltb_int by assumption;
    match goal with |- context [if ?x <? ?y then _ else _] => destruct (Z.ltb_spec x y) end;
    cbn [fst snd]; rewrite fltb_int by assumption;
    match goal with |- context [if ?x <? ?y then _ else _] => destruct (Z.ltb_spec x y) end;
    cbn [fst snd]; do 3 eexists; (split; [reflexivity|]);
    (split; [apply perm_decide; [lia..|lia]|cbn [nth]; lia]).
Qed.

Lemma sort3_orig_values : forall r g b, is_byte r -> is_byte g -> is_byte b ->
  exists i j k, static_sort3_orig (f_of_Z r) (f_of_Z g) (f_of_Z b) = (i, j, k) /\
    (i < 3)%nat /\ (j < 3)%nat /\ (k < 3)%nat /\
    nth i [r; g; b] 0 <= nth j [r; g; b] 0 <= nth k [r; g; b] 0 /\
    nth i [r; g; b] 0 + nth j [r; g; b] 0 + nth k [r; g; b] 0 = r + g + b /\
    (Permutation [i; j; k] [0; 1; 2]%nat <-> ~ (r = g /\ g <= b \/ g = b /\ b <= r)) /\
    (r <> g -> g <> b -> r <> b -> static_sort3_orig (f_of_Z r) (f_of_Z g) (f_of_Z b) =
       static_sort3 (f_of_Z r) (f_of_Z g) (f_of_Z b)).
Proof.
  intros r g b Hr Hg Hb.
  destruct (sort3_sorts r g b Hr Hg Hb) as (i' & j' & k' & E & P & O). rewrite E. clear E.
  assert (L : (i' < 3)%nat /\ (j' < 3)%nat /\ (k' < 3)%nat).
  { assert (H : forall x, In x [i'; j'; k'] -> (x < 3)%nat).
    { intros x Hx. apply (Permutation_in _ P) in Hx. cbn in Hx. lia. }
    repeat split; apply H; cbn; auto. }
  destruct L as (L1 & L2 & L3). apply perm_decide in P; try assumption.
  apply byte_small in Hr, Hg, Hb. unfold static_sort3_orig.
  rewrite fmin_int, fmax_int by assumption.
  rewrite !fltb_int by (assumption || (destruct (Z.min_spec g b) as [[_ ->]|[_ ->]]; assumption) ||
                        (destruct (Z.max_spec g b) as [[_ ->]|[_ ->]]; assumption)).
  destruct (Z.ltb_spec r (Z.min g b)), (Z.ltb_spec g b), (Z.ltb_spec (Z.max g b) r), (Z.ltb_spec b g),
    (Z.ltb_spec g r), (Z.ltb_spec r b), (Z.ltb_spec b r); try lia;
    do 3 eexists; (split; [reflexivity|]); (split; [lia|]); (split; [lia|]); (split; [lia|]);
    (split; [cbn [nth]; lia|]); (split; [cbn [nth]; lia|]);
    (split; [rewrite perm_decide by lia; lia|]); intros N1 N2 N3;
    destruct i' as [|[|[|i']]], j' as [|[|[|j']]], k' as [|[|[|k']]]; try lia; cbn [nth] in O; try lia; reflexivity.
Qed.

Lemma blend_mode_parsed : forall i, is_bytes i ->
  (forall r m, parse_blend_mode i = Ok (r, m) <->
     exists w, u16 w /\ i = le 2 w ++ r /\ m = blend_mode_code w) /\
  ((length i < 2)%nat -> parse_blend_mode i = Err (NError (ENom i KEof))).
Proof.
  intros i Hi. split.
  - intros r m. split.
    + unfold parse_blend_mode. destruct (word i) as [[r' w]|e|q] eqn:E; cbn [bind]; try discriminate.
      intros H. injection H as <- <-. destruct (word_sound i r' w Hi E) as (e & -> & [Hw ->]).
      exists w. split; [exact Hw|]. split; [reflexivity|]. apply blend_mode_from_code.
      unfold u16, uint in Hw. lia.
    + intros (w & Hw & -> & ->). unfold parse_blend_mode. rewrite word_app by exact Hw. cbn [bind].
      rewrite blend_mode_from_code; [reflexivity|]. unfold u16, uint in Hw. lia.
  - intros H. unfold parse_blend_mode, word, le_uint.
    replace (length i <? 2)%nat with true by (symmetry; apply Nat.ltb_lt; exact H). reflexivity.
Qed.
