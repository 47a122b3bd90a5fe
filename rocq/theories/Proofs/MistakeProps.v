(** The error kept for a properties area names its first mistake. *)
From Verif.Model Require Import Chunks RawFile.
From Verif.Spec Require Import Mistakes.
From Verif.Proofs Require Import ParseLib ChunkFacts UserDataFacts Utf8Facts BinaryProps BinaryProps2 BinaryFinal RawFacts.

Lemma app_inv_length {A} (a b a' b' : list A) : length a = length a' -> a ++ b = a' ++ b' -> a = a' /\ b = b'.
Proof.
  revert a'. induction a as [|x a IH]; intros [|y a'] Hl H; try discriminate Hl; [auto|].
  injection H as -> H. apply IH in H as [-> ->]; [auto|]. now injection Hl.
Qed.

(** ** Numbers *)
Lemma num_step {B} n (k : bytes * Z -> out nom_err B) ws i err :
  (forall i' a, k (i', a) = Err err <-> numbers_bad ws i' err) ->
  bind (le_uint n i) k = Err err <-> numbers_bad (Z.of_nat n :: ws) i err.
Proof.
  intro Hk. cbn [numbers_bad]. unfold le_uint, ends, zlen. destruct (Nat.ltb_spec (length i) n) as [Hl|Hl]; cbn [bind].
  - split.
    + intro H. injection H as <-. left. split; [lia|reflexivity].
    + intros [[_ ->]|(b & i' & -> & Hb & _)]; [reflexivity|]. rewrite app_length in Hl. lia.
  - rewrite Hk. split.
    + intro H. right. exists (firstn n i), (skipn n i). split; [symmetry; apply firstn_skipn|].
      split; [rewrite firstn_length; lia|exact H].
    + intros [[? _]|(b & i' & -> & Hb & H)]; [lia|]. rewrite skipn_app, skipn_all2 by lia.
      replace (n - length b)%nat with 0%nat by lia. exact H.
Qed.
Lemma bind_bind {E A B C} (m : out E A) (f : A -> out E B) (g : B -> out E C) :
  bind (bind m f) g = bind m (fun a => bind (f a) g).
Proof. now destruct m. Qed.
Lemma num_last {A} (x : bytes -> Z -> bytes * A) i' a err : Ok (x i' a) = Err err <-> numbers_bad [] i' err.
Proof. split; [discriminate|intros []]. Qed.

Definition fails {A} (p : parser A) (B : bytes -> nom_err -> Prop) : Prop :=
  forall i err, is_bytes i -> (p i = Err err <-> B i err).
Definition fails_below {A} n (p : parser A) (B : bytes -> nom_err -> Prop) : Prop :=
  forall i err, is_bytes i -> (length i < n)%nat -> (p i = Err err <-> B i err).
Lemma fails_any {A} n (p : parser A) B : fails p B -> fails_below n p B.
Proof. intros H i err Hi _. now apply H. Qed.

Ltac nums :=
  intros i err _; unfold parse_bool, byte, pmap, parse_rect, parse_point, parse_size, fixed, long, short, le_int, parse_uuid;
  rewrite ?bind_bind;
  repeat (match goal with |- bind (le_uint ?n _) _ = _ <-> _ => idtac end;
    apply num_step; let i' := fresh "i" in let a := fresh "a" in intros i' a; cbn [bind]; rewrite ?bind_bind);
  (split; [discriminate|intros []]).
Lemma uint_fails n : fails (le_uint n) (numbers_bad [Z.of_nat n]).
Proof.
  intros i err _. rewrite <- (num_step n (@Ok nom_err _)); [|intros; split; [discriminate|intros []]].
  destruct (le_uint n i) as [[? ?]|?|?]; cbn [bind]; split; intro H; try discriminate H; exact H.
Qed.
Lemma int_fails n : fails (le_int n) (numbers_bad [Z.of_nat n]).
Proof. nums. Qed.
Lemma bool_fails : fails parse_bool (numbers_bad [1]).
Proof. nums. Qed.
Lemma fixed_fails : fails fixed (numbers_bad [2; 2]).
Proof. nums. Qed.
Lemma point_fails : fails parse_point (numbers_bad [4; 4]).
Proof. nums. Qed.
Lemma size_fails : fails parse_size (numbers_bad [4; 4]).
Proof. nums. Qed.
Lemma rect_fails : fails parse_rect (numbers_bad [4; 4; 4; 4]).
Proof. nums. Qed.

Lemma string_fails : fails parse_string text_bad.
Proof.
  intros i err Hi. unfold parse_string, flat_map_p, text_bad, word. rewrite bind_bind.
  destruct (le_uint 2 i) as [[r n]|e|q] eqn:E; cbn [bind].
  - apply le_uint_sound in E as (b & -> & Hn & ->); [|exact Hi]. apply is_bytes_app_r in Hi.
    unfold take. destruct (Z.ltb_spec (zlen r) n) as [Hl|Hl]; cbn [bind].
    + split.
      * intro H. injection H as <-. right. left. exists n, r. split; [reflexivity|]. split; [exact Hn|]. split; auto.
      * intros [[H _]|[(n' & r' & H & Hn' & H1 & ->)|(s & r' & p & l & H & Hs & _)]].
        -- rewrite zlen_app, zlen_le in H. unfold zlen in H. lia.
        -- apply app_inv_length in H as [H ->]; [|rewrite !length_le; reflexivity]. reflexivity.
        -- apply app_inv_length in H as [H ->]; [|rewrite !length_le; reflexivity].
           apply le_inj in H; [|assumption..]. subst n. rewrite zlen_app in Hl. unfold zlen in Hl. lia.
    + unfold uint in Hn.
      assert (Hf : firstn (Z.to_nat n) r ++ skipn (Z.to_nat n) r = r) by apply firstn_skipn.
      assert (Hz : zlen (firstn (Z.to_nat n) r) = n) by (unfold zlen in *; rewrite firstn_length; lia).
      set (s := firstn (Z.to_nat n) r) in *. set (r' := skipn (Z.to_nat n) r) in *. clearbody s r'. subst r n.
      split.
      * destruct (from_utf8 s) as [[p l]|] eqn:Eu; [|discriminate]. intro H. injection H as <-.
        right. right. exists s, r', p, l. split; [reflexivity|]. split; [exact Hn|]. split; [|reflexivity].
        now apply from_utf8_fault.
      * intros [[H _]|[(n' & r2 & H & Hn' & H1 & ->)|(s' & r2 & p & l & H & Hs & Hu & ->)]].
        -- rewrite zlen_app, zlen_le in H. unfold zlen in H. lia.
        -- apply app_inv_length in H as [H <-]; [|rewrite !length_le; reflexivity].
           apply le_inj in H; [|assumption..]. subst n'. lia.
        -- apply app_inv_length in H as [H H2]; [|rewrite !length_le; reflexivity].
           apply le_inj in H; [|assumption..]. apply app_inv_length in H2 as [<- <-]; [|unfold zlen in H; lia].
           apply from_utf8_fault in Hu. now rewrite Hu.
  - assert (He : numbers_bad [2] i e) by (apply (uint_fails 2 i e Hi); exact E).
    split.
    + intro H. injection H as <-. destruct He as [He|(? & ? & _ & _ & [])]. now left.
    + destruct He as [[He ->]|(? & ? & _ & _ & [])].
      intros [[_ ->]|[(n' & r' & -> & _)|(s & r' & p & l & -> & _)]]; [reflexivity|..];
        rewrite zlen_app, zlen_le in He; unfold zlen in He; lia.
  - destruct (le_uint_safe 2 i q E).
Qed.

(** ** Sequences *)
Lemma count_fails {A} n (p : parser A) (L : A -> bytes -> Prop) B k i err :
  sound p L -> (forall a e r, L a e -> (length e < n)%nat -> p (e ++ r) = Ok (r, a)) -> fails_below n p B ->
  is_bytes i -> (length i < n)%nat ->
  count p k i = Err err <->
  exists l e r, i = e ++ r /\ seq_l L l e /\ zlen l < k /\ B r err.
Proof.
  intros Hs Ha Hf. unfold count.
  assert (Hk : forall l : list A, zlen l < k <-> (length l < Z.to_nat k)%nat) by (intro; unfold zlen; lia).
  setoid_rewrite Hk. clear Hk. revert i err.
  induction (Z.to_nat k) as [|m IH]; intros i err Hi Hl; cbn [count_nat].
  { split; [discriminate|]. intros (l & e & r & _ & _ & H & _). lia. }
  split.
  - destruct (p i) as [[r a]|e|q] eqn:E; cbn [bind]; try discriminate.
    + apply Hs in E as (e & -> & H); [|exact Hi]. apply is_bytes_app_r in Hi. rewrite app_length in Hl.
      destruct (count_nat p m r) as [[r2 l]|e2|q] eqn:E2; cbn [bind]; try discriminate. intro H2. injection H2 as ->.
      apply IH in E2 as (l & e3 & r3 & -> & H3 & H4 & H5); [|exact Hi|lia].
      exists (a :: l), (e ++ e3), r3. rewrite <- app_assoc. split; [reflexivity|]. split; [now apply seq_l_cons|].
      cbn [length]. split; [lia|exact H5].
    + intro H. injection H as ->. apply Hf in E; [|assumption..]. exists [], [], i.
      split; [reflexivity|]. split; [apply seq_l_nil|]. cbn [length]. split; [lia|exact E].
  - intros ([|a l] & e & r & -> & H & Hm & HB).
    + apply seq_l_nil_inv in H as ->. cbn [app] in *. apply Hf in HB; [|assumption..]. now rewrite HB.
    + apply seq_l_cons_inv in H as (e1 & e2 & -> & H1 & H2). rewrite <- app_assoc in *. rewrite app_length in Hl.
      rewrite (Ha a e1 (e2 ++ r)) by (assumption || lia). cbn [bind]. apply is_bytes_app_r in Hi. cbn [length] in Hm.
      assert (E : count_nat p m (e2 ++ r) = Err err).
      { apply IH; [exact Hi|lia|]. exists l, e2, r. repeat split; auto. lia. }
      now rewrite E.
Qed.

Lemma pmap_err {A B} (p : parser A) (f : A -> B) i err : pmap p f i = Err err <-> p i = Err err.
Proof. unfold pmap. destruct (p i) as [[? ?]|?|?]; cbn [bind]; split; intro H; try discriminate H; congruence. Qed.

(** The elements of a vector of a given type *)
Definition elements (t k : Z) (e : bytes) : Prop :=
  let is {A} (L : A -> bytes -> Prop) := exists l, zlen l = k /\ seq_l L l e in
  match t with
  | 0 => is value_l | 1 => is bool_l | 2 => is (sint_l 1) | 3 => is (uint_l 1) | 4 => is (sint_l 2)
  | 5 => is (uint_l 2) | 6 => is (sint_l 4) | 7 => is (uint_l 4) | 8 => is (sint_l 8) | 9 => is (uint_l 8)
  | 10 => is fixed_l | 11 => is (uint_l 4) | 12 => is (uint_l 8) | 13 => is string_l | 14 => is point_l
  | 15 => is size_l | 16 => is rect_l | 17 => is vector_l | 18 => is map_l | 19 => is (uint_l 16) | _ => False
  end.
Lemma type_range t : u16 t -> 0 <= t <= 0x13 ->
  t = 0 \/ t = 1 \/ t = 2 \/ t = 3 \/ t = 4 \/ t = 5 \/ t = 6 \/ t = 7 \/ t = 8 \/ t = 9 \/ t = 10 \/ t = 11 \/ t = 12 \/
  t = 13 \/ t = 14 \/ t = 15 \/ t = 16 \/ t = 17 \/ t = 18 \/ t = 19.
Proof. lia. Qed.
Lemma elements_vector t k e : u16 t -> u32 k -> (elements t k e <-> exists v, vector_l v (le 4 k ++ le 2 t ++ e)).
Proof.
  intros Ht Hk. split.
  - intro H. assert (Hr : 0 <= t <= 0x13).
    { unfold u16, uint in Ht. destruct t as [|q|q]; cbn in H; try lia.
      do 5 (try (destruct q as [q|q|]; try lia; try contradiction H)). }
    destruct (type_range t Ht Hr) as [->|[->|[->|[->|[->|[->|[->|[->|[->|[->|[->|[->|[->|[->|[->|[->|[->|[->|[->| ->]]]]]]]]]]]]]]]]]]];
      cbn in H; destruct H as (l & <- & H); eexists; constructor; try exact Hk; try exact H.
    + now apply values_seq.
    + now apply vectors_seq.
    + now apply maps_seq.
  - intros (v & H). remember (le 4 k ++ le 2 t ++ e) as E eqn:HE. destruct H as
      [l e' H1 H2|l e' H1 H2|l e' H1 H2|l e' H1 H2|l e' H1 H2|l e' H1 H2|l e' H1 H2|l e' H1 H2|l e' H1 H2|l e' H1 H2
      |l e' H1 H2|l e' H1 H2|l e' H1 H2|l e' H1 H2|l e' H1 H2|l e' H1 H2|l e' H1 H2|l e' H1 H2|l e' H1 H2|l e' H1 H2];
      apply app_inv_length in HE as [E1 HE]; try (rewrite !length_le; reflexivity);
      apply app_inv_length in HE as [E2 <-]; try (rewrite !length_le; reflexivity);
      (apply le_inj in E1; [|assumption..]); (apply le_inj in E2; [|unfold u16, uint in *; cbn; lia|exact Ht]);
      subst t; cbn; exists l; (split; [exact E1|]); try exact H2.
    + now apply values_seq.
    + now apply vectors_seq.
    + now apply maps_seq.
Qed.

(** ** One case each *)
Lemma number_type_unique t ws ws' : number_type t ws -> number_type t ws' -> ws = ws'.
Proof. unfold number_type. cbn [In]. intros H H'. intuition (subst; try congruence; try lia). Qed.
Lemma element_numbers t ws i err : number_type t ws -> (element_bad t i err <-> numbers_bad ws i err).
Proof.
  intro H. split.
  - intro H'. destruct H' as [i err Hv|t ws' i err Ht Hn|i err Hn|i err Hn|i err Hn];
      try (exfalso; unfold number_type in H; cbn [In] in H; lia).
    now rewrite (number_type_unique _ _ _ H Ht).
  - intro Hn. now apply (EB_numbers t ws).
Qed.
Ltac not_numbers := match goal with H : number_type _ _ |- _ => exfalso; unfold number_type in H; cbn [In] in H; lia end.
Lemma element_mixed i err : element_bad 0 i err <-> value_bad i err.
Proof. split; [intro H; inversion H; subst; [assumption|not_numbers]|apply EB_mixed]. Qed.
Lemma element_text i err : element_bad 0x0D i err <-> text_bad i err.
Proof. split; [intro H; inversion H; subst; [not_numbers|assumption]|apply EB_text]. Qed.
Lemma element_vector i err : element_bad 0x11 i err <-> vector_bad i err.
Proof. split; [intro H; inversion H; subst; [not_numbers|assumption]|apply EB_vector]. Qed.
Lemma element_map i err : element_bad 0x12 i err <-> map_bad i err.
Proof. split; [intro H; inversion H; subst; [not_numbers|assumption]|apply EB_map]. Qed.
Lemma element_range t i err : element_bad t i err -> 0 <= t <= 0x13.
Proof. intro H. destruct H; try lia. unfold number_type in *. cbn [In] in *. lia. Qed.

Ltac long H := rewrite ?zlen_app, ?zlen_le in H; unfold zlen in H; lia.
Lemma value_split t r err : u16 t ->
  value_bad (le 2 t ++ r) err <->
  (~ 1 <= t <= 0x13 /\ err = NFailure (EInvalidPropertyType t)) \/ (t <> 0 /\ element_bad t r err).
Proof.
  intro Ht. split.
  - intro H. remember (le 2 t ++ r) as i eqn:E. destruct H as [i err [H _]|t' r' Ht' H|t' r' err Ht' H H'].
    + subst i. long H.
    + apply app_inv_length in E as [E ->]; [|rewrite !length_le; reflexivity]. apply le_inj in E; [|assumption..]. subst t'. auto.
    + apply app_inv_length in E as [E ->]; [|rewrite !length_le; reflexivity]. apply le_inj in E; [|assumption..]. subst t'. auto.
  - intros [[H ->]|[H H']]; [now apply VB_type|now apply VB_in].
Qed.
Lemma value_short i err : zlen i < 2 -> (value_bad i err <-> err = NError (ENom i KEof)).
Proof.
  intro Hl. split.
  - intro H. destruct H as [i err [_ H]|t r Ht H|t r err Ht H H']; [exact H|long Hl..].
  - intros ->. apply VB_end. split; auto.
Qed.

Lemma number_two a b r err : numbers_bad [Z.of_nat (length a); Z.of_nat (length b)] (a ++ b ++ r) err -> False.
Proof.
  intros [[H _]|(x & y & E & Hx & [[H _]|(z & w & _ & _ & [])])].
  - rewrite !zlen_app in H. unfold zlen in H. lia.
  - apply app_inv_length in E as [-> <-]; [|unfold zlen in Hx; lia]. rewrite zlen_app in H. unfold zlen in *. lia.
Qed.
Lemma vector_split n t r err : u32 n -> u16 t ->
  vector_bad (le 4 n ++ le 2 t ++ r) err <->
  (0x13 < t /\ err = NFailure (EInvalidPropertyType t)) \/
  exists k e r', r = e ++ r' /\ 0 <= k < n /\ elements t k e /\ element_bad t r' err.
Proof.
  intros Hn Ht. split.
  - intro H. remember (le 4 n ++ le 2 t ++ r) as i eqn:E.
    destruct H as [i err H|n' t' r' Hn' Ht' H|n' t' v k e r' err Hn' Ht' Hk Hv H].
    + subst i. exfalso. apply (number_two (le 4 n) (le 2 t) r err). rewrite !length_le. exact H.
    + apply app_inv_length in E as [E E2]; [|rewrite !length_le; reflexivity]. apply le_inj in E; [|assumption..].
      apply app_inv_length in E2 as [E2 ->]; [|rewrite !length_le; reflexivity]. apply le_inj in E2; [|assumption..]. subst. auto.
    + apply app_inv_length in E as [E E2]; [|rewrite !length_le; reflexivity]. apply le_inj in E; [|assumption..].
      apply app_inv_length in E2 as [E2 <-]; [|rewrite !length_le; reflexivity]. apply le_inj in E2; [|assumption..]. subst n' t'.
      right. exists k, e, r'. split; [reflexivity|]. split; [exact Hk|]. split; [|exact H].
      apply elements_vector; [exact Ht| |now exists v]. unfold u32, uint in *. lia.
  - intros [[H ->]|(k & e & r' & -> & Hk & He & H)]; [now apply XB_type|].
    apply elements_vector in He as (v & Hv); [|exact Ht|unfold u32, uint in *; lia].
    now apply (XB_in n t v k e r').
Qed.

Lemma elements_seq {A} (L : A -> bytes -> Prop) (B : bytes -> nom_err -> Prop) t n r err :
  (forall k e, elements t k e <-> exists l, zlen l = k /\ seq_l L l e) ->
  (forall i, element_bad t i err <-> B i err) ->
  (exists k e r', r = e ++ r' /\ 0 <= k < n /\ elements t k e /\ element_bad t r' err) <->
  (exists l e r', r = e ++ r' /\ seq_l L l e /\ zlen l < n /\ B r' err).
Proof.
  intros H1 H2. split.
  - intros (k & e & r' & -> & Hk & He & H). apply H1 in He as (l & <- & He). apply H2 in H.
    exists l, e, r'. repeat split; auto. lia.
  - intros (l & e & r' & -> & He & Hl & H). exists (zlen l), e, r'. split; [reflexivity|].
    split; [unfold zlen in *; lia|]. split; [apply H1; eauto|now apply H2].
Qed.

Lemma property_fails n pv : (forall v e r, value_l v e -> (length e < n)%nat -> pv (e ++ r) = Ok (r, v)) ->
  fails_below n pv value_bad -> fails_below n (parse_property pv) property_bad.
Proof.
  intros Ha Hf i err Hi Hl. unfold parse_property.
  destruct (parse_string i) as [[r s]|e|q] eqn:E; cbn [bind].
  - assert (E0 := E). apply parse_string_sound in E as (e & -> & Hs); [|exact Hi].
    assert (Hr := is_bytes_app_r _ _ Hi). assert (Hl' := Hl). rewrite app_length in Hl'.
    destruct (pv r) as [[r2 v]|e2|q] eqn:E2; cbn [bind].
    + split; [discriminate|]. intro H. exfalso. remember (e ++ r) as i eqn:Ei. destruct H as [i err H|s' e' r' err H H'].
      * apply string_fails in H; [|exact Hi]. congruence.
      * rewrite (parse_string_app _ _ _ H) in E0. injection E0 as -> ->.
        apply Hf in H'; [congruence|exact Hr|lia].
    + split.
      * intro H. injection H as <-. apply (PB_value s); [exact Hs|]. apply Hf; [exact Hr|lia|exact E2].
      * intro H. remember (e ++ r) as i eqn:Ei. destruct H as [i err H|s' e' r' err H H'].
        -- apply string_fails in H; [|exact Hi]. congruence.
        -- rewrite (parse_string_app _ _ _ H) in E0. injection E0 as -> ->.
           apply Hf in H'; [congruence|exact Hr|lia].
    + split; [discriminate|]. intro H. exfalso. remember (e ++ r) as i eqn:Ei. destruct H as [i err H|s' e' r' err H H'].
      * apply string_fails in H; [|exact Hi]. congruence.
      * rewrite (parse_string_app _ _ _ H) in E0. injection E0 as -> ->.
        apply Hf in H'; [congruence|exact Hr|lia].
  - split.
    + intro H. injection H as <-. apply PB_name. apply string_fails; assumption.
    + intro H. destruct H as [i err H|s' e' r' err H H'].
      * apply string_fails in H; [|exact Hi]. congruence.
      * rewrite (parse_string_app _ _ _ H) in E. discriminate.
  - destruct (parse_string_safe _ _ E).
Qed.

Lemma usize_dword c i : cfg_ok c -> is_bytes i -> parse_dword_as_usize c i = le_uint 4 i.
Proof.
  intros Hc Hi. unfold parse_dword_as_usize, dword. destruct (le_uint 4 i) as [[r n]|e|q] eqn:E; cbn [bind]; try reflexivity.
  apply le_uint_sound in E as (b & -> & Hn & ->); [|exact Hi].
  assert (E := parse_dword_as_usize_app c n r Hc Hn). unfold parse_dword_as_usize, dword in E.
  rewrite le_uint_app in E by exact Hn. exact E.
Qed.

(** ** Values, vectors and maps *)
Lemma uint_err n i e : le_uint n i = Err e -> zlen i < Z.of_nat n /\ e = NError (ENom i KEof).
Proof.
  unfold le_uint, zlen. destruct (Nat.ltb_spec (length i) n) as [H|H]; [|discriminate].
  intro E. injection E as <-. split; [lia|reflexivity].
Qed.
(** The failures of the parsers of the elements *)
Ltac elem :=
  first [ eassumption
        | apply fails_any;
          first [apply bool_fails|apply (int_fails 1)|apply (uint_fails 1)|apply (int_fails 2)|apply (uint_fails 2)
                |apply (int_fails 4)|apply (uint_fails 4)|apply (int_fails 8)|apply (uint_fails 8)|apply (uint_fails 16)
                |apply fixed_fails|apply point_fails|apply size_fails|apply rect_fails|apply string_fails] ].
Ltac elem_bad :=
  intro; first [apply element_mixed|apply element_text|apply element_vector|apply element_map
               |apply element_numbers; unfold number_type; cbn [In]; intuition reflexivity].

Lemma value_case {A} n (p : parser A) B t r err :
  fails_below n p B -> 1 <= t <= 0x13 -> (forall i, element_bad t i err <-> B i err) ->
  is_bytes r -> (length r < n)%nat ->
  p r = Err err <-> (~ 1 <= t <= 0x13 /\ err = NFailure (EInvalidPropertyType t)) \/ (t <> 0 /\ element_bad t r err).
Proof.
  intros Hp Ht HB Hr Hl. rewrite (Hp r err Hr Hl), HB. split; [intro H; right; split; [lia|exact H]|].
  intros [[H _]|[_ H]]; [lia|exact H].
Qed.
Lemma vector_case {A} n (p : parser A) L B t k r err :
  fails_below n p B -> 0 <= t <= 0x13 -> sound p L ->
  (forall a e r, L a e -> (length e < n)%nat -> p (e ++ r) = Ok (r, a)) ->
  (forall k e, elements t k e <-> exists l, zlen l = k /\ seq_l L l e) ->
  (forall i, element_bad t i err <-> B i err) ->
  is_bytes r -> (length r < n)%nat ->
  count p k r = Err err <->
  (0x13 < t /\ err = NFailure (EInvalidPropertyType t)) \/
  exists j e r', r = e ++ r' /\ 0 <= j < k /\ elements t j e /\ element_bad t r' err.
Proof.
  intros Hp Ht Hs Ha HE HB Hr Hl. rewrite (count_fails n p L B k r err Hs Ha Hp Hr Hl), (elements_seq L B t k r err HE HB).
  split; [auto|]. intros [[H _]|H]; [lia|exact H].
Qed.
Lemma types_19 t : u16 t -> property_type_from_repr t = None -> ~ 1 <= t <= 0x13.
Proof.
  intros Ht E Hr. destruct (type_range t Ht ltac:(lia)) as [->|[->|[->|[->|[->|[->|[->|[->|[->|[->|[->|[->|[->|[->|[->|[->|[->|[->|[->| ->]]]]]]]]]]]]]]]]]]];
    try discriminate E; lia.
Qed.
Lemma accepts_any {A} n (p : parser A) L : accepts p L -> forall a e r, L a e -> (length e < n)%nat -> p (e ++ r) = Ok (r, a).
Proof. intros H a e r Hl _. now apply H. Qed.

Lemma two_numbers m n i err :
  numbers_bad [Z.of_nat m; Z.of_nat n] i err <-> bind (le_uint m i) (fun x => le_uint n (fst x)) = Err err.
Proof.
  symmetry. apply num_step. intros i' a. cbn [fst].
  rewrite <- (num_step n (@Ok nom_err _)); [|intros; split; [discriminate|intros []]].
  destruct (le_uint n i') as [[? ?]|?|?]; cbn [bind]; split; intro H; try discriminate H; exact H.
Qed.
Lemma vector_short i err : zlen i < 6 -> (vector_bad i err <-> bind (le_uint 4 i) (fun x => le_uint 2 (fst x)) = Err err).
Proof.
  intro Hl. rewrite <- (two_numbers 4 2). split; [|apply XB_end].
  intro H. destruct H as [i err H|n' t' r' Hn' Ht' H|n' t' v k e r' err Hn' Ht' Hk Hv H]; [exact H|long Hl..].
Qed.
Lemma map_short i err : zlen i < 8 -> (map_bad i err <-> bind (le_uint 4 i) (fun x => le_uint 4 (fst x)) = Err err).
Proof.
  intro Hl. rewrite <- (two_numbers 4 4). split; [|apply MB_end].
  intro H. destruct H as [i err H|id n l e r err Hid Hn He Hk H]; [exact H|long Hl..].
Qed.
Lemma map_split id n r err : u32 id -> u32 n ->
  map_bad (le 4 id ++ le 4 n ++ r) err <->
  exists l e r', r = e ++ r' /\ seq_l prop_l l e /\ zlen l < n /\ property_bad r' err.
Proof.
  intros Hid Hn. split.
  - intro H. remember (le 4 id ++ le 4 n ++ r) as i eqn:E.
    destruct H as [i err H|id' n' l e r' err Hid' Hn' He Hk H].
    + subst i. exfalso. apply (number_two (le 4 id) (le 4 n) r err). rewrite !length_le. exact H.
    + apply app_inv_length in E as [_ E2]; [|rewrite !length_le; reflexivity].
      apply app_inv_length in E2 as [E2 <-]; [|rewrite !length_le; reflexivity]. apply le_inj in E2; [|assumption..]. subst n'.
      exists l, e, r'. split; [reflexivity|]. split; [now apply props_seq|]. auto.
  - intros (l & e & r' & -> & He & Hl & H). apply props_seq in He. now apply (MB_in id n l e r').
Qed.
Lemma property_accepts c f : cfg_ok c -> forall x e r, prop_l x e -> (length e < f)%nat ->
  parse_property (parse_value c f) (e ++ r) = Ok (r, x).
Proof.
  intros Hc [name v] e r (e1 & e2 & H1 & H2 & ->) Hl. rewrite app_length in Hl. unfold parse_property.
  rewrite <- app_assoc, (parse_string_app _ _ _ H1). cbn [bind].
  rewrite (proj1 (user_data_complete c Hc) v e2 H2) by lia. reflexivity.
Qed.

Lemma err_same {A B} (e e' : nom_err) : @Err nom_err A e = Err e' <-> @Err nom_err B e = Err e'.
Proof. split; intro H; now injection H as ->. Qed.

Lemma user_data_fails c f : cfg_ok c ->
  fails_below f (parse_value c f) value_bad /\ fails_below f (parse_vector c f) vector_bad /\
  fails_below f (parse_properties_map c f) map_bad.
Proof.
  intro Hc. induction f as [|f (IHv & IHx & IHm)]; [split; [|split]; intros i err _ Hl; lia|].
  destruct (user_data_sound c f) as (Sv & Sx & Sm).
  destruct (user_data_complete c Hc) as (Cv & Cx & Cm & _).
  split; [|split].
  - intros i err Hi Hl. cbn [parse_value]. unfold word. destruct (le_uint 2 i) as [[r t]|e|q] eqn:E; cbn [bind].
    + apply le_uint_sound in E as (b & -> & Ht & ->); [|exact Hi]. apply is_bytes_app_r in Hi.
      rewrite app_length, length_le in Hl. rewrite value_split by exact Ht.
      destruct (property_type_cases t ltac:(eapply u_nonneg0; eassumption)) as [[-> E]|[[-> E]|[[-> E]|[[-> E]|[[-> E]|[[-> E]|[[-> E]|[[-> E]|[[-> E]|
        [[-> E]|[[-> E]|[[-> E]|[[-> E]|[[-> E]|[[-> E]|[[-> E]|[[-> E]|[[-> E]|[[-> E]|E]]]]]]]]]]]]]]]]]]];
        rewrite E.
      20: { pose proof (types_19 t Ht E) as Hr. unfold failure. split; [intro H; injection H as <-; auto|].
            intros [[_ ->]|[H0 H]]; [reflexivity|]. apply element_range in H. lia. }
      all: rewrite pmap_err; eapply (value_case f); [elem|lia|elem_bad|exact Hi|lia].
    + apply uint_err in E as [E ->]. rewrite value_short by exact E. split; [intro H; now injection H|now intros ->].
    + destruct (le_uint_safe _ _ _ E).
  - intros i err Hi Hl. cbn [parse_vector]. rewrite usize_dword by assumption.
    destruct (le_uint 4 i) as [[r n]|e|q] eqn:E; cbn [bind].
    + apply le_uint_sound in E as (b & -> & Hn & ->); [|exact Hi]. apply is_bytes_app_r in Hi.
      rewrite app_length, length_le in Hl. unfold word.
      destruct (le_uint 2 r) as [[r2 t]|e|q] eqn:E; cbn [bind].
      * apply le_uint_sound in E as (b & -> & Ht & ->); [|exact Hi]. apply is_bytes_app_r in Hi.
        rewrite app_length, length_le in Hl. rewrite vector_split by assumption.
        destruct (Z.eqb_spec t 0) as [->|Ht0].
        { rewrite pmap_err. eapply (vector_case f); [exact IHv|lia|exact Sv|intros; now apply Cv|reflexivity|elem_bad|exact Hi|lia]. }
        destruct (property_type_cases t ltac:(eapply u_nonneg0; eassumption)) as [[-> E]|[[-> E]|[[-> E]|[[-> E]|[[-> E]|[[-> E]|[[-> E]|[[-> E]|[[-> E]|
          [[-> E]|[[-> E]|[[-> E]|[[-> E]|[[-> E]|[[-> E]|[[-> E]|[[-> E]|[[-> E]|[[-> E]|E]]]]]]]]]]]]]]]]]]];
          rewrite E.
        20: { pose proof (types_19 t Ht E) as Hr. assert (0x13 < t) by (unfold u16, uint in Ht; lia).
              unfold failure. split; [intro H'; injection H' as <-; auto|].
              intros [[_ ->]|(? & ? & ? & _ & _ & _ & H')]; [reflexivity|]. apply element_range in H'. lia. }
        all: rewrite pmap_err; eapply (vector_case f);
          [elem|lia|eauto with psound
          |first [apply accepts_any; solve [eauto with paccepts]|intros; now apply Cx|intros; now apply Cm]
          |reflexivity|elem_bad|exact Hi|lia].
      * rewrite vector_short.
        { rewrite le_uint_app by exact Hn. cbn [bind fst]. rewrite E. apply err_same. }
        apply uint_err in E as [E _]. rewrite zlen_app, zlen_le. lia.
      * destruct (le_uint_safe _ _ _ E).
    + rewrite vector_short by (apply uint_err in E as [E _]; lia). rewrite E. apply err_same.
    + destruct (le_uint_safe _ _ _ E).
  - intros i err Hi Hl. cbn [parse_properties_map]. unfold dword.
    destruct (le_uint 4 i) as [[r id]|e|q] eqn:E; cbn [bind].
    + apply le_uint_sound in E as (b & -> & Hid & ->); [|exact Hi]. apply is_bytes_app_r in Hi.
      rewrite app_length, length_le in Hl. rewrite usize_dword by assumption.
      destruct (le_uint 4 r) as [[r2 n]|e|q] eqn:E; cbn [bind].
      * apply le_uint_sound in E as (b & -> & Hn & ->); [|exact Hi]. apply is_bytes_app_r in Hi.
        rewrite app_length, length_le in Hl. rewrite map_split by assumption.
        rewrite <- (count_fails f (parse_property (parse_value c f)) prop_l property_bad n r2 err).
        -- match goal with |- bind ?m _ = _ <-> _ => destruct m as [[? ?]|?|?]; cbn [bind] end;
             split; intro H; try discriminate H; now injection H as ->.
        -- now apply parse_property_sound.
        -- now apply property_accepts.
        -- apply property_fails; [intros; now apply Cv|exact IHv].
        -- exact Hi.
        -- lia.
      * rewrite map_short.
        { rewrite le_uint_app by exact Hid. cbn [bind fst]. rewrite E. apply err_same. }
        apply uint_err in E as [E _]. rewrite zlen_app, zlen_le. lia.
      * destruct (le_uint_safe _ _ _ E).
    + rewrite map_short by (apply uint_err in E as [E _]; lia). rewrite E. apply err_same.
    + destruct (le_uint_safe _ _ _ E).
Qed.

Lemma kept_first_mistake c area n err : cfg_ok c -> is_bytes area ->
  kept_error c area n err <-> area_bad area n err.
Proof.
  intros Hc Hb. unfold kept_error, area_bad.
  rewrite (count_fails (S (length area)) (parse_properties_map c (S (length area))) map_l map_bad n area err).
  - setoid_rewrite maps_seq. reflexivity.
  - apply user_data_sound.
  - intros m e r He Hl. now apply user_data_complete.
  - now apply user_data_fails.
  - exact Hb.
  - lia.
Qed.


(** ** The whole layout, with the error kept *)
Section Same.
Variables me me' : bytes -> Z -> nom_err -> Prop.
Hypothesis Hme : forall area n err, is_bytes area -> me area n err -> me' area n err.

Lemma area_same x e : is_bytes e -> properties_area_l me x e -> properties_area_l me' x e.
Proof.
  intros He (n & area & H1 & H2 & H3 & E). exists n, area. repeat (split; [assumption|]). split; [|exact E].
  destruct x as [[? ?]|err]; [exact H3|]. apply Hme; [|exact H3]. rewrite E in He. now do 2 apply is_bytes_app_r in He.
Qed.
Lemma user_data_same x e : is_bytes e -> user_data_l me x e -> user_data_l me' x e.
Proof.
  intros He (fl & e1 & e2 & e3 & H1 & H2 & H3 & H4 & H5 & H6 & H7 & E). exists fl, e1, e2, e3.
  repeat (split; [assumption|]). split; [|split; [exact H7|exact E]].
  destruct (ud_properties_maps x) as [m|]; [|exact H6]. cbn [opt_l] in *.
  apply area_same; [|exact H6]. rewrite E in He. now do 3 apply is_bytes_app_r in He.
Qed.
Lemma chunk_same x e : is_bytes e -> chunk_l me x e -> chunk_l me' x e.
Proof.
  intros He (d & H1 & H2 & E). exists d. split; [exact H1|]. split; [|exact E].
  destruct x; cbn [payload_l] in *; try exact H2. destruct H2 as (e' & g & H2 & E'). exists e', g. split; [|exact E'].
  apply user_data_same; [|exact H2]. rewrite E in He. do 2 apply is_bytes_app_r in He. rewrite E' in He. now apply is_bytes_app_l in He.
Qed.
Lemma seq_same {A} (L L' : A -> bytes -> Prop) : (forall x e, is_bytes e -> L x e -> L' x e) ->
  forall l e, is_bytes e -> seq_l L l e -> seq_l L' l e.
Proof.
  intros H. induction l as [|x l IH]; intros e He Hs.
  - apply seq_l_nil_inv in Hs as ->. apply seq_l_nil.
  - apply seq_l_cons_inv in Hs as (e1 & e2 & -> & H1 & H2). apply is_bytes_app in He as [B1 B2].
    apply seq_l_cons; auto.
Qed.
Lemma frame_same x e : is_bytes e -> frame_l me x e -> frame_l me' x e.
Proof.
  intros He (old & new & g1 & body & g2 & H1 & H2 & H3 & H4 & H5 & H6 & H7 & E).
  exists old, new, g1, body, g2. repeat (split; [assumption|]). split; [|exact E].
  apply (seq_same _ _ chunk_same); [|exact H7]. rewrite E in He. do 6 apply is_bytes_app_r in He. now apply is_bytes_app_l in He.
Qed.
Lemma raw_same x e : is_bytes e -> raw_file_l me x e -> raw_file_l me' x e.
Proof.
  intros He (e1 & e2 & H1 & H2 & H3 & E). exists e1, e2. repeat (split; [assumption|]). split; [|exact E].
  apply (seq_same _ _ frame_same); [|exact H3]. rewrite E in He. now apply is_bytes_app_r in He.
Qed.
End Same.

Lemma user_data_exactly c i r u : cfg_ok c -> is_bytes i -> addressable c i ->
  parse_user_data_chunk c i = Ok (r, u) <-> exists e, i = e ++ r /\ user_data_l area_bad u e.
Proof.
  intros Hc Hi Ha. rewrite (user_data_iff c Hc i r u Hi Ha).
  split; intros (e & -> & H); exists e; (split; [reflexivity|]); apply is_bytes_app_l in Hi;
    (eapply user_data_same; [|exact Hi|exact H]); intros area n err Hb He; now apply (kept_first_mistake c).
Qed.
Lemma raw_file_exactly c i f : cfg_ok c -> is_bytes i -> addressable c i ->
  parse_raw_file c i = Ok f <-> raw_file_l area_bad f i.
Proof.
  intros Hc Hi Ha. rewrite parse_raw_file_iff by assumption.
  split; intro H; (eapply raw_same; [|exact Hi|exact H]); intros area n err Hb He; now apply (kept_first_mistake c).
Qed.

Lemma mistake_unique area n err err' : is_bytes area -> area_bad area n err -> area_bad area n err' -> err = err'.
Proof.
  intros Hb H H'. set (c := {| debug := true; usize_bits := 64 |}).
  assert (Hc : cfg_ok c) by (now right).
  apply (kept_first_mistake c) in H; [|assumption..]. apply (kept_first_mistake c) in H'; [|assumption..].
  unfold kept_error in *. congruence.
Qed.
Lemma mistake_iff area n : is_bytes area -> 0 <= n ->
  (exists err, area_bad area n err) <-> ~ exists e rest ms, area = e ++ rest /\ zlen ms = n /\ maps_l ms e.
Proof.
  intros Hb Hn. set (c := {| debug := true; usize_bits := 64 |}).
  assert (Hc : cfg_ok c) by (now right).
  rewrite <- (kept_error_iff c area n Hc Hb Hn). split; intros (err & H); exists err; now apply (kept_first_mistake c).
Qed.
