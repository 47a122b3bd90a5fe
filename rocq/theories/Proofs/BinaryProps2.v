(** More consequences: acceptance, palettes, repetition cost, nesting. *)
From Verif.Model Require Import RawFile.
From Verif.Proofs Require Import ParseLib ChunkFacts ChunkFacts2 UserDataFacts RawFacts Safety BinaryProps.
Local Ltac Zify.zify_post_hook ::= Z.div_mod_to_equations.

(** ** Acceptance does not depend on which error is kept *)
Section Swap.
Variables me me' : bytes -> Z -> nom_err -> Prop.
Hypothesis Hme : forall area n err, is_bytes area -> 0 <= n -> me area n err -> exists err', me' area n err'.

Lemma area_swap x e : is_bytes e -> properties_area_l me x e -> exists x', properties_area_l me' x' e.
Proof.
  intros He (n & area & H1 & H2 & H3 & ->).
  assert (is_bytes area) by (apply is_bytes_app_r, is_bytes_app_r in He; exact He).
  destruct x as [[rest ms]|err].
  - exists (inl (rest, ms)), n, area. auto.
  - destruct (Hme _ _ _ H (proj1 H2) H3) as (err' & H4). exists (inr err'), n, area. auto.
Qed.

Lemma user_data_swap x e : is_bytes e -> user_data_l me x e -> exists x', user_data_l me' x' e.
Proof.
  intros He (f & e1 & e2 & e3 & H1 & H2 & H3 & H4 & H5 & H6 & H7 & ->).
  assert (B3 : is_bytes e3) by (apply is_bytes_app_r, is_bytes_app_r, is_bytes_app_r in He; exact He).
  destruct (ud_properties_maps x) as [m|] eqn:E.
  - destruct (area_swap _ _ B3 H6) as (m' & Hm).
    exists {| ud_text := ud_text x; ud_color := ud_color x; ud_properties_maps := Some m' |}.
    exists f, e1, e2, e3. cbn. tauto.
  - exists x, f, e1, e2, e3. rewrite E. tauto.
Qed.

Lemma payload_swap x e : is_bytes e -> payload_l me x e ->
  exists x', chunk_code x' = chunk_code x /\ payload_l me' x' e.
Proof.
  intros He H. destruct x; try (eexists; split; [reflexivity|exact H]).
  destruct H as (e1 & g & H & ->). destruct (user_data_swap _ _ (is_bytes_app_l _ _ He) H) as (u' & Hu).
  exists (ChUserData u'). split; [reflexivity|]. exists e1, g. auto.
Qed.

Lemma chunk_swap x e : is_bytes e -> chunk_l me x e -> exists x', chunk_l me' x' e.
Proof.
  intros He (d & H1 & H2 & E). assert (B : is_bytes d).
  { rewrite E in He. apply is_bytes_app_r, is_bytes_app_r in He; exact He. }
  destruct (payload_swap _ _ B H2) as (x' & E' & H'). exists x', d. rewrite E'. auto.
Qed.

Lemma seq_swap {A} (L L' : A -> bytes -> Prop) : (forall x e, is_bytes e -> L x e -> exists x', L' x' e) ->
  forall l e, is_bytes e -> seq_l L l e -> exists l', zlen l' = zlen l /\ seq_l L' l' e.
Proof.
  intros H. induction l as [|x l IH]; intros e He Hs.
  - apply seq_l_nil_inv in Hs as ->. exists []. split; [reflexivity|apply seq_l_nil].
  - apply seq_l_cons_inv in Hs as (e1 & e2 & -> & H1 & H2). apply is_bytes_app in He as [B1 B2].
    destruct (H _ _ B1 H1) as (x' & Hx). destruct (IH _ B2 H2) as (l' & Hz & Hl).
    exists (x' :: l'). split; [rewrite !zlen_cons; lia|now apply seq_l_cons].
Qed.

Lemma frame_swap x e : is_bytes e -> frame_l me x e -> exists x', frame_l me' x' e.
Proof.
  intros He (old & new & g1 & body & g2 & H1 & H2 & H3 & H4 & H5 & H6 & H7 & E).
  assert (B : is_bytes body).
  { rewrite E in He. do 6 apply is_bytes_app_r in He. now apply is_bytes_app_l in He. }
  destruct (seq_swap _ _ chunk_swap _ _ B H7) as (l' & Hz & Hl).
  exists {| rf_duration := rf_duration x; rf_chunks := l' |}.
  exists old, new, g1, body, g2. cbn. rewrite Hz. repeat split; assumption || apply H2 || apply H3 || apply H5 || idtac.
  all: first [apply H1|exact E].
Qed.

Lemma raw_swap x e : is_bytes e -> raw_file_l me x e -> exists x', raw_file_l me' x' e.
Proof.
  intros He (e1 & e2 & H1 & H2 & H3 & ->). apply is_bytes_app_r in He.
  destruct (seq_swap _ _ frame_swap _ _ He H3) as (l' & Hz & Hl).
  exists {| rw_header := rw_header x; rw_frames := l' |}, e1, e2. cbn. repeat split; try assumption.
  intros ->. destruct (rw_frames x); [contradiction|]. rewrite zlen_cons in Hz.
  pose proof (zlen_nonneg l). cbn in Hz. lia.
Qed.
End Swap.

Lemma raw_accepted_iff c i : cfg_ok c -> is_bytes i -> addressable c i ->
  (exists f, parse_raw_file c i = Ok f) <-> (exists f, raw_file_l not_maps f i).
Proof.
  intros Hc Hi Ha. split; intros (f & H).
  - apply parse_raw_file_iff in H; [|assumption..]. eapply raw_swap; [|exact Hi|exact H].
    intros area n err Hb Hn He. exists err. unfold not_maps.
    apply (proj1 (kept_error_iff c area n Hc Hb Hn)). eauto.
  - assert (H' : exists f, raw_file_l (kept_error c) f i).
    { eapply raw_swap; [|exact Hi|exact H]. intros area n err Hb Hn He.
      apply (proj2 (kept_error_iff c area n Hc Hb Hn)). exact He. }
    destruct H' as (f' & H'). exists f'. now apply parse_raw_file_iff.
Qed.

(** ** Palette chunk against the published layout *)
Lemma palette_agrees c p e r : cfg_ok c -> spec_palette_l (zlen (pc_entries p)) p e ->
  parse_palette_chunk c (e ++ r) = Ok (r, p).
Proof.
  intros Hc (g & b & H1 & H2 & H3 & H4 & H5 & H6 & ->). apply parse_palette_chunk_accepts; [exact Hc|].
  exists g, b. auto 10.
Qed.

Lemma palette_rejects c size first last rest : u32 size -> u32 first -> u32 last ->
  is_bytes rest -> 255 < last \/ last < first ->
  exists err, parse_palette_chunk c (le 4 size ++ le 4 first ++ le 4 last ++ rest) = Err err.
Proof.
  intros H1 H2 H3 Hr Hbad.
  assert (Hi : is_bytes (le 4 size ++ le 4 first ++ le 4 last ++ rest)).
  { repeat (apply is_bytes_app; split); try apply is_bytes_le. exact Hr. }
  destruct (parse_palette_chunk c _) as [[r p]|err|q] eqn:E; [|eauto|destruct (parse_palette_safe _ _ _ E)].
  exfalso. apply parse_palette_chunk_sound in E as (e & E & g & b & S1 & S2 & S3 & S4 & S5 & ->); [|exact Hi].
  rewrite <- !app_assoc in E. 
  assert (D := accepts_determined _ _ (le_uint_accepts 4)).
  assert (U : forall v, u32 v -> uint_l 4 v (le 4 v)) by (intros v Hv; split; [exact Hv|reflexivity]).
  destruct (D _ _ _ _ _ _ (U _ H1) (U _ S1) E) as (_ & _ & E2).
  assert (F1 : u32 (pc_first p)) by (unfold u32, uint; lia).
  assert (F2 : u32 (pc_last p)) by (unfold u32, uint; lia).
  destruct (D _ _ _ _ _ _ (U _ H2) (U _ F1) E2) as (E3 & _ & E4).
  destruct (D _ _ _ _ _ _ (U _ H3) (U _ F2) E4) as (E5 & _ & _). lia.
Qed.

(** ** Cost of repetitions *)
Definition consuming {A} (p : parser A) : Prop :=
  forall i r a, is_bytes i -> p i = Ok (r, a) -> exists e, e <> [] /\ i = e ++ r.

Lemma count_cost {A} (p : parser A) n i : consuming p -> is_bytes i -> zlen i < n ->
  count p n i = count p (zlen i + 1) i.
Proof.
  intros Hp Hi Hn. unfold count, zlen in *.
  replace (Z.to_nat (Z.of_nat (length i) + 1)) with (S (length i)) by lia.
  assert (HL : (length i < Z.to_nat n)%nat) by lia. clear Hn. revert HL.
  generalize (Z.to_nat n) as m. clear n. remember (length i) as k eqn:Ek.
  assert (Hk : (length i <= k)%nat) by lia. clear Ek. revert i Hi Hk.
  induction k as [|k IH]; intros i Hi Hk m Hm.
  - destruct m as [|m]; [lia|]. cbn [count_nat].
    destruct (p i) as [[r a]|?|?] eqn:E; cbn [bind]; try reflexivity.
    destruct (Hp _ _ _ Hi E) as (e & He & ->). destruct e; [contradiction|]. cbn in Hk. lia.
  - destruct m as [|m]; [lia|]. cbn [count_nat].
    destruct (p i) as [[r a]|?|?] eqn:E; cbn [bind]; try reflexivity.
    destruct (Hp _ _ _ Hi E) as (e & He & ->). apply is_bytes_app_r in Hi.
    destruct e; [contradiction|]. cbn in Hk. rewrite app_length in Hk.
    now rewrite (IH r Hi ltac:(lia) m ltac:(lia)).
Qed.

Lemma sound_consuming {A} (p : parser A) L : sound p L -> (forall a, ~ L a []) -> consuming p.
Proof.
  intros Hs HL i r a Hi H. destruct (Hs _ _ _ Hi H) as (e & -> & He). exists e.
  split; [|reflexivity]. intros ->. exact (HL _ He).
Qed.

Lemma chunk_consuming c : consuming (parse_chunk c).
Proof.
  intros i r a Hi H. unfold parse_chunk in H. unfold dword_size in H.
  destruct (dword i) as [[i1 v]|?|?] eqn:E1; cbn [bind] in H; try discriminate.
  destruct (4 <=? v); cbn [bind failure] in H; [|discriminate].
  destruct (u32c c (v - 4)) as [n|?|?] eqn:E2; cbn [bind] in H; try discriminate.
  destruct (take n i1) as [[i2 s]|?|?] eqn:E3; cbn [bind] in H; try discriminate.
  destruct (parse_chunk_type s) as [[i3 t]|?|?]; cbn [bind] in H; try discriminate.
  destruct (parse_chunk_data c t i3); cbn [bind] in H; try discriminate. injection H as <- <-.
  apply dword_sound in E1 as (e & -> & _ & ->); [|exact Hi]. apply take_suffix in E3 as ->.
  exists (le 4 v ++ s). split; [discriminate|now rewrite app_assoc].
Qed.


Lemma elements_consuming c f :
  consuming parse_bool /\ (forall n, (0 < n)%nat -> consuming (le_uint n) /\ consuming (le_int n)) /\
  consuming fixed /\ consuming parse_string /\ consuming parse_point /\ consuming parse_size /\
  consuming parse_rect /\ consuming (parse_value c f) /\ consuming (parse_vector c f) /\
  consuming (parse_properties_map c f) /\ consuming (parse_property (parse_value c f)) /\
  consuming parse_rgb /\ consuming parse_packet /\ consuming parse_palette_entry /\
  consuming parse_external_file /\ (forall k, consuming (parse_slice_key (from_bits_truncate SF_ALL k))) /\ consuming parse_tag /\
  consuming (parse_chunk c).
Proof.
  assert (Sstr : consuming parse_string).
  { eapply sound_consuming; [apply parse_string_sound|]. intros a (_ & _ & E). discriminate. }
  destruct (user_data_sound c f) as (Sv & Sx & Sm).
  split. { eapply sound_consuming; [apply parse_bool_reads|]. intros a (x & _ & _ & E). discriminate. }
  split. { intros n Hn. split.
    - eapply sound_consuming; [apply le_uint_sound|]. intros a (_ & E). destruct n; [lia|discriminate].
    - eapply sound_consuming; [now apply le_int_sound|]. intros a (_ & E). destruct n; [lia|discriminate]. }
  split. { eapply sound_consuming; [apply fixed_reads|]. intros a (_ & _ & E). discriminate. }
  split; [exact Sstr|].
  split. { eapply sound_consuming; [apply parse_point_reads|]. intros a (_ & _ & E). discriminate. }
  split. { eapply sound_consuming; [apply parse_size_reads|]. intros a (_ & _ & E). discriminate. }
  split. { eapply sound_consuming; [apply parse_rect_reads|]. intros a (e1 & e2 & (_ & _ & ->) & _ & E). discriminate. }
  split. { eapply sound_consuming; [exact Sv|]. intros a H. inversion H. }
  split. { eapply sound_consuming; [exact Sx|]. intros a H. inversion H. }
  split. { eapply sound_consuming; [exact Sm|]. intros a H. inversion H. }
  split. { intros i r a Hi H. unfold parse_property in H.
    destruct (parse_string i) as [[i1 s]|?|?] eqn:E1; cbn [bind] in H; try discriminate.
    destruct (parse_value c f i1) as [[i2 v]|?|?] eqn:E2; cbn [bind] in H; try discriminate.
    injection H as <- <-. destruct (Sstr _ _ _ Hi E1) as (e & He & ->).
    apply Sv in E2 as (e2 & -> & _); [|now apply is_bytes_app_r in Hi].
    exists (e ++ e2). rewrite app_assoc. split; [|reflexivity]. destruct e; [contradiction|discriminate]. }
  split. { eapply sound_consuming; [apply parse_rgb_reads|]. intros a (_ & E). discriminate. }
  split. { eapply sound_consuming; [apply parse_packet_sound|]. intros a (n & b & _ & _ & _ & _ & E). discriminate. }
  split. { eapply sound_consuming; [apply parse_palette_entry_sound|]. intros a (n & e1 & e2 & _ & _ & _ & _ & E). discriminate. }
  split. { eapply sound_consuming; [apply parse_external_file_sound|]. intros a (n & e1 & e2 & _ & _ & _ & _ & _ & E). discriminate. }
  split. { intro k. eapply sound_consuming; [apply parse_slice_key_sound|]. intros a (e1 & e2 & H). decompose [and] H. discriminate. }
  split. { eapply sound_consuming; [apply parse_tag_sound|]. intros a (d & g & l & e1 & H). decompose [and] H. discriminate. }
  apply chunk_consuming.
Qed.

(** ** Unbounded nesting *)
Fixpoint nested (n : nat) : vector :=
  match n with O => VecVector [] | S n' => VecVector [nested n'] end.
Fixpoint nested_bytes (n : nat) : bytes :=
  match n with
  | O => le 4 0 ++ le 2 0x11
  | S n' => le 4 1 ++ le 2 0x11 ++ nested_bytes n'
  end.

Lemma nested_length n : length (nested_bytes n) = (6 * n + 6)%nat.
Proof.
  induction n as [|n IH]; [reflexivity|]. cbn [nested_bytes]. rewrite !app_length, !length_le, IH. lia.
Qed.

Lemma nested_l n : vector_l (nested n) (nested_bytes n).
Proof.
  induction n as [|n IH]; cbn [nested nested_bytes].
  - change (vector_l (VecVector []) (le 4 (zlen (@nil vector)) ++ le 2 17 ++ [])).
    apply XL_vector; [cbv; intuition congruence|constructor].
  - change (vector_l (VecVector [nested n]) (le 4 (zlen [nested n]) ++ le 2 17 ++ nested_bytes n)).
    apply XL_vector; [cbv; intuition congruence|].
    rewrite <- (app_nil_r (nested_bytes n)). constructor; [exact IH|constructor].
Qed.

Lemma nested_step c f i : cfg_ok c -> parse_vector c (S f) (le 4 1 ++ le 2 0x11 ++ i) =
  (let* (r, v) := parse_vector c f i in Ok (r, VecVector [v])).
Proof.
  intro Hc. cbn [parse_vector].
  rewrite parse_dword_as_usize_app by (exact Hc || (cbv; intuition congruence)). cbn [bind].
  rewrite word_app by (cbv; intuition congruence). cbn [bind].
  change (17 =? 0) with false. cbn [property_type_from_repr].
  unfold pmap, count. change (Z.to_nat 1) with 1%nat. cbn [count_nat].
  now destruct (parse_vector c f i) as [[? ?]|?|?].
Qed.

Lemma nested_fuel c n r : cfg_ok c -> parse_vector c n (nested_bytes n ++ r) = Panic PFuel.
Proof.
  intros Hc. revert r. induction n as [|n IH]; intro r; [reflexivity|].
  cbn [nested_bytes]. rewrite <- !app_assoc, nested_step by exact Hc. now rewrite IH.
Qed.

Lemma nested_enough c n r : cfg_ok c -> parse_vector c (S n) (nested_bytes n ++ r) = Ok (r, nested n).
Proof.
  intros Hc. revert r. induction n as [|n IH]; intro r.
  - cbn [parse_vector nested_bytes]; rewrite <- !app_assoc.
    rewrite parse_dword_as_usize_app by (exact Hc || (cbv; intuition congruence)). cbn [bind].
    rewrite word_app by (cbv; intuition congruence). reflexivity.
  - cbn [nested_bytes]. rewrite <- !app_assoc, nested_step by exact Hc. now rewrite IH.
Qed.
