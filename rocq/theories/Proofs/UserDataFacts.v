(** The user data parser reads exactly its layout; its recursion fuel never
    runs out. *)
From Verif.Model Require Import Chunks.
From Verif.Proofs Require Import ParseLib ChunkFacts.
Local Ltac Zify.zify_post_hook ::= Z.div_mod_to_equations.

Definition prop_l (x : property) (e : bytes) : Prop :=
  match x with Prop_ name v => exists e1 e2, string_l name e1 /\ value_l v e2 /\ e = e1 ++ e2 end.

Lemma values_seq l e : values_l l e <-> seq_l value_l l e.
Proof.
  split.
  - intro H. induction H; [apply seq_l_nil|]. now apply seq_l_cons.
  - revert e; induction l as [|x l IH]; intros e H.
    + apply seq_l_nil_inv in H as ->. constructor.
    + apply seq_l_cons_inv in H as (e1 & e2 & -> & H1 & H2). constructor; auto.
Qed.
Lemma vectors_seq l e : vectors_l l e <-> seq_l vector_l l e.
Proof.
  split.
  - intro H. induction H; [apply seq_l_nil|]. now apply seq_l_cons.
  - revert e; induction l as [|x l IH]; intros e H.
    + apply seq_l_nil_inv in H as ->. constructor.
    + apply seq_l_cons_inv in H as (e1 & e2 & -> & H1 & H2). constructor; auto.
Qed.
Lemma maps_seq l e : maps_l l e <-> seq_l map_l l e.
Proof.
  split.
  - intro H. induction H; [apply seq_l_nil|]. now apply seq_l_cons.
  - revert e; induction l as [|x l IH]; intros e H.
    + apply seq_l_nil_inv in H as ->. constructor.
    + apply seq_l_cons_inv in H as (e1 & e2 & -> & H1 & H2). constructor; auto.
Qed.
Lemma props_seq l e : props_l l e <-> seq_l prop_l l e.
Proof.
  split.
  - intro H. induction H; [apply seq_l_nil|]. rewrite app_assoc. apply seq_l_cons; [|assumption].
    exists e1, e2. auto.
  - revert e; induction l as [|x l IH]; intros e H.
    + apply seq_l_nil_inv in H as ->. constructor.
    + apply seq_l_cons_inv in H as (e1 & e2 & -> & H1 & H2). destruct x as [n v].
      destruct H1 as (a & b & Ha & Hb & ->). rewrite <- app_assoc. constructor; auto.
Qed.

(** ** Property type codes *)
Lemma property_type_cases w : 0 <= w ->
  (w = 0x01 /\ property_type_from_repr w = Some PTBool) \/
  (w = 0x02 /\ property_type_from_repr w = Some PTInt8) \/
  (w = 0x03 /\ property_type_from_repr w = Some PTUint8) \/
  (w = 0x04 /\ property_type_from_repr w = Some PTInt16) \/
  (w = 0x05 /\ property_type_from_repr w = Some PTUint16) \/
  (w = 0x06 /\ property_type_from_repr w = Some PTInt32) \/
  (w = 0x07 /\ property_type_from_repr w = Some PTUint32) \/
  (w = 0x08 /\ property_type_from_repr w = Some PTInt64) \/
  (w = 0x09 /\ property_type_from_repr w = Some PTUint64) \/
  (w = 0x0A /\ property_type_from_repr w = Some PTFixed) \/
  (w = 0x0B /\ property_type_from_repr w = Some PTFloat) \/
  (w = 0x0C /\ property_type_from_repr w = Some PTDouble) \/
  (w = 0x0D /\ property_type_from_repr w = Some PTString) \/
  (w = 0x0E /\ property_type_from_repr w = Some PTPoint) \/
  (w = 0x0F /\ property_type_from_repr w = Some PTSize) \/
  (w = 0x10 /\ property_type_from_repr w = Some PTRect) \/
  (w = 0x11 /\ property_type_from_repr w = Some PTVector) \/
  (w = 0x12 /\ property_type_from_repr w = Some PTPropertiesMap) \/
  (w = 0x13 /\ property_type_from_repr w = Some PTUuid) \/
  property_type_from_repr w = None.
Proof.
  intro H. destruct (Z.ltb_spec w 0x14) as [Hl|Hl].
  - assert (Hin : In w (map Z.of_nat (seq 0 20))).
    { rewrite in_map_iff. exists (Z.to_nat w). split; [lia|]. apply in_seq. lia. }
    cbn in Hin. repeat (destruct Hin as [<-|Hin]; [cbn; intuition congruence|]). destruct Hin.
  - do 19 right. unfold property_type_from_repr. destruct w as [|p|p]; try lia.
    do 6 (try (destruct p as [p|p|]; try reflexivity; try lia)).
Qed.

Lemma parse_bool_reads : sound parse_bool bool_l /\ accepts parse_bool bool_l.
Proof.
  split.
  - intros i r a Hi H. apply pmap_inv in H as (x & H & ->).
    apply byte_sound in H as (e & -> & Hx & ->); [|exact Hi]. eexists. split; [reflexivity|].
    exists x. auto.
  - intros e r b (x & Hx & -> & ->). exact (pmap_app _ _ _ _ _ (byte_app x r Hx)).
Qed.
Definition parse_bool_sound := proj1 parse_bool_reads.
Lemma parse_uuid_sound : sound parse_uuid (uint_l 16).
Proof. apply le_uint_sound. Qed.
#[export] Hint Resolve parse_bool_sound parse_uuid_sound : psound.
Lemma le_uint_accepts n : accepts (le_uint n) (uint_l n).
Proof. intros e r a [H ->]. now apply le_uint_app. Qed.
Lemma le_int_accepts n : (0 < n)%nat -> accepts (le_int n) (sint_l n).
Proof. intros Hn e r a [H ->]. now apply le_int_app. Qed.
Lemma parse_string_accepts : accepts parse_string string_l.
Proof. intros e r a H. now apply parse_string_app. Qed.
Definition parse_bool_accepts := proj2 parse_bool_reads.
Create HintDb paccepts.
#[export] Hint Resolve le_uint_accepts parse_string_accepts parse_bool_accepts : paccepts.
#[export] Hint Extern 1 (accepts (le_int _) _) => (apply le_int_accepts; lia) : paccepts.
#[export] Hint Extern 1 (accepts fixed _) => exact (proj2 fixed_reads) : paccepts.
#[export] Hint Extern 1 (accepts parse_point _) => exact (proj2 parse_point_reads) : paccepts.
#[export] Hint Extern 1 (accepts parse_size _) => exact (proj2 parse_size_reads) : paccepts.
#[export] Hint Extern 1 (accepts parse_rect _) => exact (proj2 parse_rect_reads) : paccepts.
#[export] Hint Extern 1 (accepts parse_uuid _) => apply (le_uint_accepts 16) : paccepts.

Lemma pmap_sound {A B} (p : parser A) L (f : A -> B) (L' : B -> bytes -> Prop) :
  sound p L -> (forall a e, L a e -> L' (f a) e) -> sound (pmap p f) L'.
Proof.
  intros Hp HL i r b Hi H. apply pmap_inv in H as (a & H & ->).
  apply Hp in H as (e & -> & H); [|exact Hi]. eauto.
Qed.

(** ** Soundness *)
Lemma sound_prefixed {A} (p : parser A) (L : A -> bytes -> Prop) e0 i r a :
  sound p (fun a e => L a (e0 ++ e)) -> is_bytes i -> p i = Ok (r, a) ->
  exists e, e0 ++ i = e ++ r /\ L a e.
Proof.
  intros Hp Hi H. apply Hp in H as (e & -> & H); [|exact Hi]. exists (e0 ++ e).
  split; [now rewrite app_assoc|exact H].
Qed.

Lemma parse_property_sound pv : sound pv value_l -> sound (parse_property pv) prop_l.
Proof.
  intros Hp i r x Hi H. unfold parse_property in H. pone H Hi.
  match type of H with bind ?m _ = _ => destruct m as [[? ?]|?|?] eqn:Eq; cbn [bind] in H; try discriminate end.
  apply Hp in Eq as (e2 & -> & H2); [|exact Hi]. injection H as <- <-. pexists.
  exists e, e2. auto.
Qed.

Lemma u_nonneg0 n v : uint n v -> 0 <= v.
Proof. unfold uint. lia. Qed.

Ltac vec_tac Hi H :=
  eapply sound_prefixed; [|exact Hi|exact H];
  eapply pmap_sound; [eapply count_sound; [eapply u_nonneg0; eassumption|eauto with psound]|];
  let l := fresh "l" in let e := fresh "e" in
  intros l e [<- ?]; rewrite <- app_assoc;
  constructor; [assumption|];
  first [assumption|now apply values_seq|now apply vectors_seq|now apply maps_seq].

Lemma user_data_sound c f :
  sound (parse_value c f) value_l /\ sound (parse_vector c f) vector_l /\
  sound (parse_properties_map c f) map_l.
Proof.
  induction f as [|f (IHv & IHx & IHm)].
  { split; [|split]; intros i r a _ H; discriminate H. }
  split; [|split].
  - intros i r a Hi H. cbn [parse_value] in H. pone H Hi. rename z into w.
    destruct (property_type_cases w ltac:(eapply u_nonneg0; eassumption)) as [[-> E]|[[-> E]|[[-> E]|[[-> E]|[[-> E]|[[-> E]|[[-> E]|[[-> E]|[[-> E]|
      [[-> E]|[[-> E]|[[-> E]|[[-> E]|[[-> E]|[[-> E]|[[-> E]|[[-> E]|[[-> E]|[[-> E]|E]]]]]]]]]]]]]]]]]]];
      rewrite E in H; try discriminate H;
      (eapply sound_prefixed; [|exact Hi|exact H]; eapply pmap_sound; [eauto with psound|]; intros; constructor; assumption).
  - intros i r a Hi H. cbn [parse_vector] in H. pone H Hi. pone H Hi. rename z into n, z0 into w.
    rewrite app_assoc.
    destruct (Z.eqb_spec w 0) as [->|Hw]; [vec_tac Hi H|].
    destruct (property_type_cases w ltac:(eapply u_nonneg0; eassumption)) as [[-> E]|[[-> E]|[[-> E]|[[-> E]|[[-> E]|[[-> E]|[[-> E]|[[-> E]|[[-> E]|
      [[-> E]|[[-> E]|[[-> E]|[[-> E]|[[-> E]|[[-> E]|[[-> E]|[[-> E]|[[-> E]|[[-> E]|E]]]]]]]]]]]]]]]]]]];
      rewrite E in H; try discriminate H; vec_tac Hi H.
  - intros i r a Hi H. cbn [parse_properties_map] in H. pone H Hi. pone H Hi. 
    match type of H with bind ?m _ = _ => destruct m as [[? ?]|?|?] eqn:Eq; cbn [bind] in H; try discriminate end.
    eapply count_sound in Eq as (e2 & -> & Hn & H2); [|eapply u_nonneg0; eassumption|apply parse_property_sound, IHv|exact Hi].
    injection H as <- <-. pexists. rewrite <- Hn in *. constructor; [assumption|assumption|]. now apply props_seq.
Qed.

(** ** Completeness, given enough fuel *)
Scheme value_l_ind' := Induction for value_l Sort Prop
with vector_l_ind' := Induction for vector_l Sort Prop
with map_l_ind' := Induction for map_l Sort Prop
with props_l_ind' := Induction for props_l Sort Prop
with values_l_ind' := Induction for values_l Sort Prop
with vectors_l_ind' := Induction for vectors_l Sort Prop
with maps_l_ind' := Induction for maps_l Sort Prop.
Combined Scheme user_data_ind from value_l_ind', vector_l_ind', map_l_ind', props_l_ind',
  values_l_ind', vectors_l_ind', maps_l_ind'.

Lemma bind_ok_l {E A B} (a : A) (k : A -> out E B) : bind (Ok a) k = k a.
Proof. reflexivity. Qed.
Ltac fuel f H := destruct f as [|f]; [exfalso; clear - H; lia|].
Ltac ulen := rewrite ?app_length, ?length_le in *; lia.

Lemma count_zlen {A} (p : parser A) l i r :
  count_nat p (length l) i = Ok (r, l) -> count p (zlen l) i = Ok (r, l).
Proof. unfold count, zlen. now rewrite Nat2Z.id. Qed.

Lemma user_data_complete c : cfg_ok c ->
  (forall v e, value_l v e -> forall f r, (length e < f)%nat -> parse_value c f (e ++ r) = Ok (r, v)) /\
  (forall v e, vector_l v e -> forall f r, (length e < f)%nat -> parse_vector c f (e ++ r) = Ok (r, v)) /\
  (forall m e, map_l m e -> forall f r, (length e < f)%nat ->
     parse_properties_map c f (e ++ r) = Ok (r, m)) /\
  (forall l e, props_l l e -> forall f r, (length e < f)%nat ->
     count_nat (parse_property (parse_value c f)) (length l) (e ++ r) = Ok (r, l)) /\
  (forall l e, values_l l e -> forall f r, (length e < f)%nat ->
     count_nat (parse_value c f) (length l) (e ++ r) = Ok (r, l)) /\
  (forall l e, vectors_l l e -> forall f r, (length e < f)%nat ->
     count_nat (parse_vector c f) (length l) (e ++ r) = Ok (r, l)) /\
  (forall l e, maps_l l e -> forall f r, (length e < f)%nat ->
     count_nat (parse_properties_map c f) (length l) (e ++ r) = Ok (r, l)).
Proof.
  intro Hc. apply user_data_ind.
  (* values with a simple payload *)
  all: try (intros x e H f r Hf; fuel f Hf; cbn [parse_value];
    rewrite <- app_assoc, word_app by (unfold u16, uint; cbn; lia); cbn [bind property_type_from_repr];
    apply pmap_app;
    match goal with H : ?L ?x e |- ?p _ = _ =>
      let A := fresh in eassert (A : accepts p L) by eauto with paccepts; exact (A _ _ _ H) end).
  (* nested values *)
  all: try (intros x e H IH f r Hf; fuel f Hf; cbn [parse_value];
    rewrite <- app_assoc, word_app by (unfold u16, uint; cbn; lia); cbn [bind property_type_from_repr];
    apply pmap_app; apply IH; ulen).
  (* vectors of simple elements *)
  all: try (intros x e Hn H f r Hf; fuel f Hf; cbn [parse_vector];
    rewrite <- !app_assoc, parse_dword_as_usize_app, bind_ok_l, word_app
      by (assumption || (unfold u16, uint; cbn; lia)); cbn [bind property_type_from_repr Z.eqb Pos.eqb];
    apply pmap_app; eapply count_app; [reflexivity| |exact H]; eauto with paccepts).
  (* vectors of nested elements *)
  all: try (intros x e Hn H IH f r Hf; fuel f Hf; cbn [parse_vector];
    rewrite <- !app_assoc, parse_dword_as_usize_app, bind_ok_l, word_app
      by (assumption || (unfold u16, uint; cbn; lia)); cbn [bind property_type_from_repr Z.eqb Pos.eqb];
    apply pmap_app; apply count_zlen; apply IH; ulen).
  (* a property map *)
  - intros id l e Hid Hn _ IH f r Hf. fuel f Hf. cbn [parse_properties_map].
    rewrite <- !app_assoc, dword_app, bind_ok_l, parse_dword_as_usize_app, bind_ok_l by assumption.
    rewrite (count_zlen _ l (e ++ r) r); [reflexivity|]. apply IH. ulen.
  - reflexivity.
  - intros name v l e1 e2 e3 Hs _ IHv _ IHl f r Hf. cbn [length count_nat]. unfold parse_property at 1.
    rewrite <- !app_assoc, (parse_string_app _ _ _ Hs). cbn [bind].
    rewrite IHv by ulen. cbn [bind]. rewrite IHl by ulen. reflexivity.
  - reflexivity.
  - intros v l e1 e2 _ IHv _ IHl f r Hf. cbn [length count_nat].
    rewrite <- !app_assoc, IHv by ulen. cbn [bind]. rewrite IHl by ulen. reflexivity.
  - reflexivity.
  - intros v l e1 e2 _ IHv _ IHl f r Hf. cbn [length count_nat].
    rewrite <- !app_assoc, IHv by ulen. cbn [bind]. rewrite IHl by ulen. reflexivity.
  - reflexivity.
  - intros v l e1 e2 _ IHv _ IHl f r Hf. cbn [length count_nat].
    rewrite <- !app_assoc, IHv by ulen. cbn [bind]. rewrite IHl by ulen. reflexivity.
Qed.

(** ** No panics *)
Definition nopanic {A} (p : parser A) : Prop := forall i q, p i <> Panic q.
Create HintDb psafe.
Lemma le_uint_safe n : nopanic (le_uint n).
Proof. intros i q. unfold le_uint. destruct (_ <? _)%nat; discriminate. Qed.
Lemma take_safe n : nopanic (take n).
Proof. intros i q. unfold take. destruct (_ <? _); discriminate. Qed.
Lemma tag_safe t : nopanic (Nom.tag t).
Proof. intros i q. unfold tag. destruct (list_eqb _ _); discriminate. Qed.
#[export] Hint Resolve le_uint_safe take_safe tag_safe : psafe.
#[export] Hint Extern 3 (nopanic byte) => apply le_uint_safe : psafe.
#[export] Hint Extern 3 (nopanic word) => apply le_uint_safe : psafe.
#[export] Hint Extern 3 (nopanic dword) => apply le_uint_safe : psafe.
#[export] Hint Extern 3 (nopanic parse_uuid) => apply le_uint_safe : psafe.

(** Peel one [bind] of a goal [bind m k <> Panic q]. *)
Ltac safe_step :=
  match goal with
  | |- bind ?m _ <> Panic _ =>
      let E := fresh "E" in
      destruct m as [[? ?]|?|?] eqn:E; cbn [bind];
      [|discriminate
       |let S := fresh in
        match type of E with ?p ?i = Panic ?q =>
          assert (S : nopanic p) by (auto with psafe); destruct (S i q E) end]
  | |- Ok _ <> _ => discriminate
  | |- Err _ <> _ => discriminate
  | |- failure _ <> _ => discriminate
  | |- (if ?b then _ else _) <> _ => destruct b
  end.
Ltac safe_tac := intros i q; cbv zeta; repeat safe_step.

Lemma le_int_safe n : nopanic (le_int n).
Proof. unfold le_int. safe_tac. Qed.
#[export] Hint Resolve le_int_safe : psafe.
#[export] Hint Extern 3 (nopanic short) => apply le_int_safe : psafe.
#[export] Hint Extern 3 (nopanic long) => apply le_int_safe : psafe.
Lemma pmap_safe {A B} (p : parser A) (f : A -> B) : nopanic p -> nopanic (pmap p f).
Proof. intro H. unfold pmap. safe_tac. Qed.
Lemma flat_map_safe {A B} (p : parser A) (f : A -> parser B) :
  nopanic p -> (forall a, nopanic (f a)) -> nopanic (flat_map_p p f).
Proof.
  intros H H2 i q. unfold flat_map_p. destruct (p i) as [[r a]|?|?] eqn:E; cbn [bind];
    [apply H2|discriminate|destruct (H _ _ E)].
Qed.
Lemma cond_safe {A} b (p : parser A) : nopanic p -> nopanic (cond b p).
Proof. intros H i q. unfold cond. destruct b; [apply pmap_safe, H|discriminate]. Qed.
Lemma count_safe {A} (p : parser A) n : nopanic p -> nopanic (count p n).
Proof.
  intro H. unfold count. induction (Z.to_nat n) as [|k IH]; intros i q; cbn [count_nat]; [discriminate|].
  repeat safe_step.
Qed.
#[export] Hint Resolve pmap_safe flat_map_safe cond_safe count_safe : psafe.
Lemma parse_string_safe : nopanic parse_string.
Proof. unfold parse_string. safe_tac. destruct (from_utf8 _) as [[? ?]|]; discriminate. Qed.
Lemma parse_point_safe : nopanic parse_point.
Proof. unfold parse_point. safe_tac. Qed.
Lemma parse_size_safe : nopanic parse_size.
Proof. unfold parse_size. safe_tac. Qed.
#[export] Hint Resolve parse_string_safe parse_point_safe parse_size_safe : psafe.
Lemma parse_rect_safe : nopanic parse_rect.
Proof. unfold parse_rect. safe_tac. Qed.
Lemma fixed_safe : nopanic fixed.
Proof. unfold fixed. safe_tac. Qed.
Lemma parse_color_safe : nopanic parse_color.
Proof. unfold parse_color. safe_tac. Qed.
Lemma parse_rgb_safe : nopanic parse_rgb.
Proof. unfold parse_rgb. safe_tac. Qed.
Lemma parse_bool_safe : nopanic parse_bool.
Proof. apply pmap_safe, le_uint_safe. Qed.
Lemma parse_dword_as_usize_safe c : nopanic (parse_dword_as_usize c).
Proof. unfold parse_dword_as_usize. safe_tac. Qed.
Lemma parse_dword_as_u8_safe e : nopanic (parse_dword_as_u8 e).
Proof. unfold parse_dword_as_u8. safe_tac. Qed.
Lemma dword_size_safe f : nopanic (dword_size f).
Proof. unfold dword_size. safe_tac. Qed.
#[export] Hint Resolve parse_rect_safe fixed_safe parse_color_safe parse_rgb_safe parse_bool_safe
  parse_dword_as_usize_safe parse_dword_as_u8_safe dword_size_safe : psafe.

(** [p] does not panic on inputs shorter than [n]. *)
Definition safe_below {A} (n : nat) (p : parser A) : Prop :=
  forall i q, is_bytes i -> (length i < n)%nat -> p i <> Panic q.
Lemma nopanic_below {A} n (p : parser A) : nopanic p -> safe_below n p.
Proof. intros H i q _ _. apply H. Qed.
Lemma count_below {A} n (p : parser A) L k : sound p L -> safe_below n p -> safe_below n (count p k).
Proof.
  intros Hs H. unfold count. induction (Z.to_nat k) as [|m IH]; intros i q Hi Hl; cbn [count_nat]; [discriminate|].
  destruct (p i) as [[r a]|?|?] eqn:E; cbn [bind]; [|discriminate|destruct (H _ _ Hi Hl E)].
  apply Hs in E as (e & -> & _); [|exact Hi]. apply is_bytes_app_r in Hi. rewrite app_length in Hl.
  destruct (count_nat p m r) as [[r2 l]|?|?] eqn:E2; cbn [bind]; try discriminate.
  destruct (IH r p0 Hi ltac:(lia) E2).
Qed.
Lemma pmap_below {A B} n (p : parser A) (f : A -> B) : safe_below n p -> safe_below n (pmap p f).
Proof.
  intros H i q Hi Hl. unfold pmap. destruct (p i) as [[r a]|?|?] eqn:E; cbn [bind]; try discriminate.
  destruct (H _ _ Hi Hl E).
Qed.

Lemma parse_property_below n pv : safe_below n pv -> safe_below n (parse_property pv).
Proof.
  intros H i q Hi Hl. unfold parse_property. destruct (parse_string i) as [[r a]|?|?] eqn:E; cbn [bind];
    [|discriminate|destruct (parse_string_safe _ _ E)].
  apply parse_string_sound in E as (e & -> & _); [|exact Hi]. apply is_bytes_app_r in Hi. rewrite app_length in Hl.
  destruct (pv r) as [[r2 l]|?|?] eqn:E2; cbn [bind]; try discriminate.
  destruct (H r p Hi ltac:(lia) E2).
Qed.

(** What remains after reading [k > 0] bytes is shorter. *)
Ltac read_step Hi Hl :=
  match goal with
  | |- bind (?p ?i) _ <> Panic _ =>
      let E := fresh "E" in let S := fresh "S" in
      destruct (p i) as [[? ?]|?|?] eqn:E; cbn [bind];
      [ eassert (S : sound p _) by (eauto with psound); apply S in E; [|exact Hi]; clear S;
        destruct E as (? & -> & [? ->]); apply is_bytes_app_r in Hi; rewrite app_length, length_le in Hl
      | discriminate
      | exfalso; eassert (S : nopanic p) by (eauto with psafe); destruct (S _ _ E) ]
  end.

Lemma user_data_below c f :
  safe_below f (parse_value c f) /\ safe_below f (parse_vector c f) /\
  safe_below f (parse_properties_map c f).
Proof.
  induction f as [|f (IHv & IHx & IHm)]; [split; [|split]; intros i q Hi Hl; lia|].
  destruct (user_data_sound c f) as (Sv & Sx & Sm).
  split; [|split].
  - intros i q Hi Hl. cbn [parse_value]. read_step Hi Hl.
    destruct (property_type_from_repr _) as [pt|]; [|discriminate].
    destruct pt; try solve [apply pmap_safe; auto with psafe];
      (apply (pmap_below f); [assumption|exact Hi|lia]).
  - intros i q Hi Hl. cbn [parse_vector]. read_step Hi Hl. read_step Hi Hl.
    destruct (_ =? 0); [apply (pmap_below f); [eapply count_below; eassumption|exact Hi|lia]|].
    destruct (property_type_from_repr _) as [pt|]; [|discriminate].
    destruct pt; try solve [apply pmap_safe; auto with psafe];
      (apply (pmap_below f); [eapply count_below; eassumption|exact Hi|lia]).
  - intros i q Hi Hl. cbn [parse_properties_map]. read_step Hi Hl. read_step Hi Hl.
    match goal with |- bind ?m _ <> _ => destruct m as [[r2 l2]|?|p] eqn:E2; cbn [bind]; try discriminate end.
    exfalso. revert E2.
    eapply (count_below f); [apply parse_property_sound, Sv|apply parse_property_below, IHv|exact Hi|lia].
Qed.

Lemma count_maps_safe c n area : is_bytes area ->
  forall q, count (parse_properties_map c (S (length area))) n area <> Panic q.
Proof.
  intros Hb q. eapply (count_below (S (length area))); [apply user_data_sound|apply user_data_below|exact Hb|lia].
Qed.
Lemma count_maps_iff c n area rest ms : cfg_ok c -> is_bytes area -> 0 <= n ->
  count (parse_properties_map c (S (length area))) n area = Ok (rest, ms) <->
  exists e, area = e ++ rest /\ zlen ms = n /\ maps_l ms e.
Proof.
  intros Hc Hb Hn. split.
  - intro H. eapply count_sound in H as (e & -> & H1 & H2); [|exact Hn|apply user_data_sound|exact Hb].
    exists e. rewrite maps_seq. auto.
  - intros (e & -> & <- & H). apply count_zlen.
    apply user_data_complete; [exact Hc|exact H|]. rewrite app_length. lia.
Qed.

Lemma kept_error_iff c area n : cfg_ok c -> is_bytes area -> 0 <= n ->
  (exists err, kept_error c area n err) <-> ~ exists e rest ms, area = e ++ rest /\ zlen ms = n /\ maps_l ms e.
Proof.
  intros Hc Hb Hn. unfold kept_error. split.
  - intros (err & H) (e & rest & ms & H2). assert (H3 := proj2 (count_maps_iff c n area rest ms Hc Hb Hn)).
    rewrite H3 in H by eauto. discriminate.
  - intro H. destruct (count _ n area) as [[rest ms]|err|q] eqn:E; [|eauto|].
    + apply count_maps_iff in E as (e & H2); [|assumption..]. destruct H. eauto.
    + destruct (count_maps_safe c n area Hb q E).
Qed.
