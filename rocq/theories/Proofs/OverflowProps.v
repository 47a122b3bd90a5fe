(** Exactly which inputs make [load] panic. *)
From Verif.Model Require Import Loader.
From Verif.Spec Require Import Bytes Format FileSpec Errors Loads.
From Verif.Proofs Require Import ParseLib ChunkFacts ChunkFacts2 UserDataFacts RawFacts Safety FileProps LoaderFacts BinaryFinal FileFinal ErrorProps.
Local Ltac Zify.zify_post_hook ::= Z.div_mod_to_equations.

Section Overflow.
Context (c : cfg) (Hc : cfg_ok c) (Hd : debug c = true).

Lemma maps_panic i q : is_bytes i -> parse_properties_maps c i = Panic q ->
  exists size n r, i = le 4 size ++ le 4 n ++ r /\ 0 <= size < 8 /\ u32 n.
Proof.
  intros Hi. unfold parse_properties_maps.
  destruct (parse_dword_as_usize c i) as [[i1 sz]|?|?] eqn:E1; cbn [bind]; try discriminate;
    [|destruct (parse_dword_as_usize_safe _ _ _ E1)].
  apply parse_dword_as_usize_sound in E1 as (b & -> & Hsz & ->); [|exact Hi]. apply is_bytes_app_r in Hi.
  destruct (parse_dword_as_usize c i1) as [[i2 n]|?|?] eqn:E2; cbn [bind]; try discriminate;
    [|destruct (parse_dword_as_usize_safe _ _ _ E2)].
  apply parse_dword_as_usize_sound in E2 as (b & -> & Hn & ->); [|exact Hi]. apply is_bytes_app_r in Hi.
  pose proof (u_nonneg _ _ Hsz). pose proof (u32_lt _ Hsz).
  destruct (Z.ltb_spec sz 8) as [Hlt|Hge].
  - intros _. exists sz, n, i2. auto.
  - unfold usizec. rewrite checked_ok by (unfold cfg_ok in Hc; destruct Hc as [-> | ->]; cbn; lia). cbn [bind].
    destruct (take (sz - 8) i2) as [[i3 area]|?|?] eqn:E4; cbn [bind]; try discriminate;
      [|destruct (take_safe _ _ _ E4)].
    apply bytes_take in E4 as [Hb _]; [|exact Hi].
    destruct (count _ n area) eqn:E5; try discriminate.
    destruct (count_maps_safe _ _ _ Hb _ E5).
Qed.

Lemma user_data_panic i q : is_bytes i -> parse_user_data_chunk c i = Panic q -> short_area i.
Proof.
  intros Hi. unfold parse_user_data_chunk. cbv zeta.
  change UDF_HAS_TEXT with (2 ^ 0). change UDF_HAS_COLOR with (2 ^ 1). change UDF_HAS_PROPERTIES with (2 ^ 2).
  destruct (dword i) as [[i1 fl]|?|?] eqn:E1; cbn [bind]; try discriminate;
    [|destruct (le_uint_safe _ _ _ E1)].
  apply dword_sound in E1 as (b & -> & Hf & ->); [|exact Hi]. apply is_bytes_app_r in Hi.
  rewrite !udf_bits by auto.
  match goal with |- bind ?m _ = _ -> _ => destruct m as [[i2 tx]|?|?] eqn:E2; cbn [bind]; try discriminate end;
    [|destruct (cond_safe _ _ parse_string_safe _ _ E2)].
  eapply cond_sound in E2 as (e1 & -> & H1 & H2); [|apply parse_string_sound|exact Hi]. apply is_bytes_app_r in Hi.
  match goal with |- bind ?m _ = _ -> _ => destruct m as [[i3 co]|?|?] eqn:E3; cbn [bind]; try discriminate end;
    [|destruct (cond_safe _ _ parse_color_safe _ _ E3)].
  eapply cond_sound in E3 as (e2 & -> & H3 & H4); [|apply parse_color_sound|exact Hi]. apply is_bytes_app_r in Hi.
  match goal with |- bind ?m _ = _ -> _ => destruct m as [[i4 pm]|?|p] eqn:E4; cbn [bind]; try discriminate end.
  intros [= <-]. unfold cond in E4. destruct (Z.testbit fl 2) eqn:Eb; [|discriminate].
  unfold pmap in E4. destruct (parse_properties_maps c i3) as [[? ?]|?|?] eqn:E5; cbn [bind] in E4; try discriminate.
  apply maps_panic in E5 as (size & n & r & -> & Hs & Hn); [|exact Hi].
  exists fl, tx, co, e1, e2, size, n, r. auto 10.
Qed.
Lemma user_data_panics i : short_area i -> parse_user_data_chunk c i = Panic POverflow.
Proof.
  intros (fl & t & co & e1 & e2 & size & n & r & -> & Hf & Hn & H1 & H2 & H3 & H4 & H5 & Hs).
  unfold parse_user_data_chunk. papp.
  change UDF_HAS_TEXT with (2 ^ 0). change UDF_HAS_COLOR with (2 ^ 1). change UDF_HAS_PROPERTIES with (2 ^ 2).
  rewrite !udf_bits by auto.
  erewrite cond_app; [|apply parse_string_accepts|eassumption|assumption]. cbn [bind].
  erewrite cond_app; [|apply (proj2 parse_color_reads)|eassumption|assumption]. cbn [bind].
  rewrite H5. unfold cond, pmap, parse_properties_maps.
  rewrite parse_dword_as_usize_app by (try apply small_u32; auto; lia). cbn [bind].
  rewrite parse_dword_as_usize_app by assumption. cbn [bind].
  unfold usizec, checked. replace (0 <=? size - 8) with false by lia. cbn [andb]. now rewrite Hd.
Qed.

Lemma chunk_panic i q : is_bytes i -> parse_chunk c i = Panic q ->
  exists d rest, i = encode_chunk 0x2020 d ++ rest /\ u32 (zlen d + 6) /\ short_area d.
Proof.
  intros Hi. unfold parse_chunk.
  destruct (dword_size _ i) as [[i1 sz]|?|?] eqn:E1; cbn [bind]; try discriminate;
    [|destruct (dword_size_safe _ _ _ E1)].
  apply dword_size_sound in E1 as (e & -> & H4 & Hs & ->); [|exact Hi]. apply is_bytes_app_r in Hi.
  pose proof (u32_lt _ Hs). rewrite u32c_ok by lia. cbn [bind].
  destruct (take (sz - 4) i1) as [[rest d0]|?|?] eqn:E3; cbn [bind]; try discriminate;
    [|destruct (take_safe _ _ _ E3)].
  apply take_inv in E3 as [-> Hl]; [|lia]. apply is_bytes_app_l in Hi.
  destruct (parse_chunk_type d0) as [[d t]|?|?] eqn:E4; cbn [bind]; try discriminate;
    [|assert (S : nopanic parse_chunk_type) by (apply pmap_safe; auto with psafe); destruct (S _ _ E4)].
  apply pmap_inv in E4 as (w & E4 & ->).
  apply word_sound in E4 as (b & -> & Hw & ->); [|exact Hi]. apply is_bytes_app_r in Hi.
  destruct (parse_chunk_data c _ d) as [?|?|p] eqn:E5; cbn [bind]; try discriminate. intros _.
  assert (G : w = 0x2020 /\ short_area d).
  { destruct (chunk_type_from_repr w) as [t|] eqn:Et; [|discriminate].
    destruct t; cbn [parse_chunk_data] in E5; try discriminate; apply just_panic in E5;
      try (match type of E5 with ?p d = _ => assert (S : nopanic p) by auto with psafe end; destruct (S _ _ E5)).
    split; [|exact (user_data_panic _ _ Hi E5)].
    unfold chunk_type_from_repr in Et.
    repeat match type of Et with (if ?z =? ?k then _ else _) = _ => destruct (Z.eqb_spec z k); [try discriminate; try assumption|] end.
    discriminate. }
  destruct G as [-> G]. exists d, rest. rewrite encode_chunk_alt. split; [|split; [|exact G]].
  - rewrite <- !app_assoc. rewrite Hl. do 2 f_equal. lia.
  - rewrite zlen_app, zlen_le in Hl. now replace (zlen d + 6) with sz by lia.
Qed.
Lemma chunk_panics d rest : u32 (zlen d + 6) -> short_area d -> parse_chunk c (encode_chunk 0x2020 d ++ rest) = Panic POverflow.
Proof.
  intros Hs H. unfold parse_chunk. rewrite encode_chunk_alt, <- app_assoc.
  rewrite framed_app by (rewrite zlen_app, zlen_le; now replace (Z.of_nat 2 + zlen d + 4) with (zlen d + 6) by lia).
  unfold parse_chunk_type. erewrite pmap_app by (apply word_app; unfold u16, uint; cbn; lia). cbn [bind].
  change (chunk_type_from_repr 0x2020) with (Some TUserData). cbn [parse_chunk_data].
  unfold just. now rewrite user_data_panics.
Qed.

Definition frame_overruns (i : bytes) : Prop :=
  exists cs size old duration ignored new e d rest after,
    i = le 4 size ++ le 2 0xF1FA ++ le 2 old ++ le 2 duration ++ ignored ++ le 4 new ++ e ++
        (encode_chunk 0x2020 d ++ rest) ++ after /\
    u32 size /\ u16 old /\ u16 duration /\ zlen ignored = 2 /\ u32 new /\
    size = zlen e + zlen (encode_chunk 0x2020 d ++ rest) + 16 /\
    seq_l (chunk_l (kept_error c)) cs e /\ zlen cs < (if new =? 0 then old else new) /\
    u32 (zlen d + 6) /\ short_area d.

Lemma frame_panic i q : is_bytes i -> addressable c i -> parse_rawframe c i = Panic q -> frame_overruns i.
Proof.
  intros Hi Ha. unfold parse_rawframe.
  destruct (dword_size _ i) as [[i1 sz]|?|?] eqn:E1; cbn [bind]; try discriminate;
    [|destruct (dword_size_safe _ _ _ E1)].
  apply dword_size_sound in E1 as (e & -> & H4 & Hs & ->); [|exact Hi].
  apply is_bytes_app_r in Hi. apply addressable_app_r in Ha.
  pose proof (u32_lt _ Hs). rewrite u32c_ok by lia. cbn [bind].
  destruct (take (sz - 4) i1) as [[rest d0]|?|?] eqn:E3; cbn [bind]; try discriminate;
    [|destruct (take_safe _ _ _ E3)].
  apply take_inv in E3 as [-> Hl]; [|lia]. apply is_bytes_app_l in Hi. apply addressable_app_l in Ha.
  destruct (tag FRAME_MAGIC_NUMBER d0) as [[d1 m]|?|?] eqn:E; cbn [bind]; try discriminate;
    [|destruct (tag_safe _ _ _ E)].
  apply tag_inv in E as [-> ->]. apply is_bytes_app_r in Hi. apply addressable_app_r in Ha.
  destruct (word d1) as [[d2 old]|?|?] eqn:E; cbn [bind]; try discriminate; [|destruct (le_uint_safe _ _ _ E)].
  apply word_sound in E as (b & -> & Hold & ->); [|exact Hi]. apply is_bytes_app_r in Hi. apply addressable_app_r in Ha.
  destruct (word d2) as [[d3 dur]|?|?] eqn:E; cbn [bind]; try discriminate; [|destruct (le_uint_safe _ _ _ E)].
  apply word_sound in E as (b & -> & Hdur & ->); [|exact Hi]. apply is_bytes_app_r in Hi. apply addressable_app_r in Ha.
  destruct (take 2 d3) as [[d4 ig]|?|?] eqn:E; cbn [bind]; try discriminate; [|destruct (take_safe _ _ _ E)].
  apply take_inv in E as [-> Hig]; [|lia]. apply is_bytes_app_r in Hi. apply addressable_app_r in Ha.
  destruct (parse_dword_as_usize c d4) as [[d5 new]|?|?] eqn:E; cbn [bind]; try discriminate;
    [|destruct (parse_dword_as_usize_safe _ _ _ E)].
  apply parse_dword_as_usize_sound in E as (b & -> & Hnew & ->); [|exact Hi].
  apply is_bytes_app_r in Hi. apply addressable_app_r in Ha.
  match goal with |- bind ?m _ = _ -> _ => destruct m as [[d6 l]|x|p] eqn:Eq; cbn [bind]; try discriminate end.
  intros _. unfold parse_chunks, count in Eq.
  assert (Hpos : 0 <= (if new =? 0 then old else new)) by (destruct (new =? 0); eapply u_nonneg; eassumption).
  assert (G : exists l e1 r q, d5 = e1 ++ r /\ seq_l (chunk_l (kept_error c)) l e1 /\
    (length l < Z.to_nat (if (new =? 0)%Z then old else new))%nat /\ parse_chunk c r = Panic q).
  { revert Eq. generalize (Z.to_nat (if new =? 0 then old else new)) as n. clear -Hc Hi Ha. intro n.
    revert d5 Hi Ha; induction n as [|n IH]; intros i Hi Ha H; cbn [count_nat] in H; [discriminate|].
    destruct (parse_chunk c i) as [[i1 a]|x|q] eqn:E; cbn [bind] in H; [|discriminate|].
    - apply parse_chunk_sound in E as (e0 & -> & Hl); [|exact Hc|exact Hi|exact Ha].
      apply is_bytes_app_r in Hi. apply addressable_app_r in Ha.
      destruct (count_nat _ n i1) as [[i2 l]|x|q] eqn:E; cbn [bind] in H; try discriminate.
      injection H as ->. destruct (IH _ Hi Ha E) as (l & e1 & r & q & -> & H1 & H2 & H3).
      exists (a :: l), (e0 ++ e1), r, q. rewrite <- app_assoc. split; [reflexivity|].
      split; [now apply seq_l_cons|]. split; [cbn; lia|exact H3].
    - exists [], [], i, q. split; [reflexivity|]. split; [apply seq_l_nil|].
      split; [cbn; lia|exact E]. }
  destruct G as (l & e1 & r & q' & -> & H1 & H2 & H3). apply is_bytes_app_r in Hi.
  apply chunk_panic in H3 as (d & rest' & -> & Hd6 & Hsh); [|exact Hi].
  exists l, sz, old, dur, ig, new, e1, d, rest', rest. repeat apply conj; try assumption; try (apply Hs || apply Hold || apply Hdur || apply Hnew || apply Hd6).
  - rewrite <- !app_assoc. reflexivity.
  - rewrite !zlen_app, !zlen_le, Hig in Hl. change (zlen FRAME_MAGIC_NUMBER) with 2 in Hl. rewrite zlen_app. lia.
  - unfold zlen. lia.
Qed.

Lemma count_panic_app {A} (p : parser A) (L : A -> bytes -> Prop) l e1 r n q :
  (forall e r a, is_bytes e -> L a e -> p (e ++ r) = Ok (r, a)) -> is_bytes e1 -> seq_l L l e1 ->
  (length l < n)%nat -> p r = Panic q -> count_nat p n (e1 ++ r) = Panic q.
Proof.
  intros Hp. revert e1 n; induction l as [|a l IH]; intros e1 n Hb H Hn Hr; (destruct n as [|n]; [cbn in Hn; lia|]); cbn [count_nat].
  - apply seq_l_nil_inv in H as ->. cbn [app]. now rewrite Hr.
  - apply seq_l_cons_inv in H as (a1 & a2 & -> & H1 & H2). apply is_bytes_app in Hb as [Hb1 Hb2].
    rewrite <- app_assoc, (Hp _ _ _ Hb1 H1). cbn [bind]. rewrite (IH a2 n); [reflexivity|assumption..|cbn in Hn; lia|assumption].
Qed.

Lemma frame_panics i : is_bytes i -> frame_overruns i -> parse_rawframe c i = Panic POverflow.
Proof.
  intros Hi (cs & size & old & dur & ig & new & e & d0 & rest & after & -> & H1 & H2 & H3 & H4 & H5 & H6 & H7 & H8 & H9 & H10).
  set (r := encode_chunk 0x2020 d0 ++ rest) in *.
  set (d := le 2 0xF1FA ++ le 2 old ++ le 2 dur ++ ig ++ le 4 new ++ e ++ r).
  replace (le 4 size ++ le 2 61946 ++ le 2 old ++ le 2 dur ++ ig ++ le 4 new ++ e ++ r ++ after)
    with (le 4 (zlen d + 4) ++ d ++ after) in *.
  2:{ subst d. rewrite !zlen_app, !zlen_le, H4, H6. rewrite <- !app_assoc. do 2 f_equal. lia. }
  assert (Hd4 : zlen d + 4 = size) by (subst d; rewrite !zlen_app, !zlen_le; lia).
  unfold parse_rawframe. rewrite framed_app by now rewrite Hd4.
  apply is_bytes_app_r, is_bytes_app_l in Hi. subst d. do 5 apply is_bytes_app_r in Hi.
  change (le 2 61946) with FRAME_MAGIC_NUMBER. papp.
  rewrite parse_dword_as_usize_app by assumption. cbn [bind]. unfold parse_chunks, count.
  apply is_bytes_app in Hi as [Hi1 Hi2].
  erewrite (count_panic_app (parse_chunk c) (chunk_l (kept_error c))); [reflexivity| |exact Hi1|exact H7| |].
  - intros. now apply parse_chunk_accepts.
  - unfold zlen in H8. lia.
  - now apply chunk_panics.
Qed.

Lemma many_loop_panic {A} (p : parser A) L : sound_a c p L -> (forall a e, L a e -> e <> []) -> forall fuel i acc q,
  is_bytes i -> addressable c i -> (length i < fuel)%nat -> many_loop p fuel acc i = Panic q ->
  exists l e1 r, i = e1 ++ r /\ seq_l L l e1 /\ p r = Panic q.
Proof.
  intros Hp Hne. induction fuel as [|fuel IH]; intros i acc q Hi Ha Hf H; cbn [many_loop] in H; [lia|].
  destruct (p i) as [[i' a]|[x|x]|q'] eqn:E; try discriminate.
  - destruct (_ =? _)%nat; [discriminate|].
    apply Hp in E as (e1 & -> & H1); [|assumption..]. apply is_bytes_app_r in Hi. apply addressable_app_r in Ha.
    assert (length e1 <> 0)%nat by (intro Hz; apply (Hne _ _ H1); now destruct e1). rewrite app_length in Hf.
    apply IH in H as (l & e2 & r & -> & H2 & H3); [|assumption..|lia].
    exists (a :: l), (e1 ++ e2), r. rewrite <- app_assoc. split; [reflexivity|]. split; [now apply seq_l_cons|exact H3].
  - injection H as ->. exists [], [], i. split; [reflexivity|]. split; [apply seq_l_nil|exact E].
Qed.
Lemma many_loop_panic_app {A} (p : parser A) (L : A -> bytes -> Prop) :
  (forall e r a, is_bytes e -> L a e -> p (e ++ r) = Ok (r, a)) ->
  (forall a e, L a e -> e <> []) ->
  forall l e r fuel acc q, is_bytes e -> seq_l L l e -> (length e < fuel)%nat -> p r = Panic q ->
  many_loop p fuel acc (e ++ r) = Panic q.
Proof.
  intros Hp Hne. induction l as [|y l IH]; intros e r fuel acc x Hb H Hf Hr;
    (destruct fuel as [|fuel]; [lia|]); cbn [many_loop].
  - apply seq_l_nil_inv in H as ->. cbn [app]. now rewrite Hr.
  - apply seq_l_cons_inv in H as (e1 & e2 & -> & H1 & H2). apply is_bytes_app in Hb as [Hb1 Hb2].
    rewrite <- app_assoc, (Hp _ _ _ Hb1 H1). rewrite !app_length in *.
    assert (length e1 <> 0)%nat by (intro Hz; apply (Hne _ _ H1); now destruct e1).
    replace (length e2 + length r =? length e1 + (length e2 + length r))%nat with false by lia.
    apply (IH e2); (assumption || lia).
Qed.

Lemma frame_l_nonempty a e : frame_l (kept_error c) a e -> e <> [].
Proof. intros H ->. apply frame_l_zlen in H. cbn in H. lia. Qed.

Lemma overruns_frame i : overruns c i <-> exists fs r, at_frame c i fs r /\ frame_overruns r.
Proof.
  split.
  - intros (fs & cs & d & (after' & (size & old & dur & ig & new & e & after & Hf & H1 & H2 & H3 & H4 & H5 & H6 & H7 & H8) & _ & Hs) & Hm).
    exists fs. eexists. split; [exact Hf|].
    exists cs, size, old, dur, ig, new, e, d, after', after. auto 15.
  - intros (fs & r & Hf & cs & size & old & dur & ig & new & e & d & rest & after & -> & H1 & H2 & H3 & H4 & H5 & H6 & H7 & H8 & H9 & H10).
    exists fs, cs, d. split; [|exact H10]. exists rest. split.
    + exists size, old, dur, ig, new, e, after. auto 10.
    + split; [unfold u16, uint; cbn; lia|exact H9].
Qed.

Lemma raw_overruns i q : is_bytes i -> addressable c i ->
  (parse_raw_file c i = Panic q <-> q = POverflow /\ overruns c i).
Proof.
  intros Hi Ha. split.
  - intro H. split; [eapply parse_raw_file_overflow; eassumption|]. apply overruns_frame.
    unfold parse_raw_file in H.
    destruct (parse_header i) as [[i1 h]|e|p] eqn:E; cbn [bind] in H; [|discriminate|destruct (parse_header_safe _ _ E)].
    apply parse_header_sound in E as (e1 & -> & H1); [|exact Hi].
    apply is_bytes_app_r in Hi. apply addressable_app_r in Ha.
    assert (G : exists fs e2 r p, i1 = e2 ++ r /\ seq_l (frame_l (kept_error c)) fs e2 /\ parse_rawframe c r = Panic p).
    { unfold parse_frames, complete, all_consuming, many1 in H.
      destruct (parse_rawframe c i1) as [[i2 f]|e|p] eqn:E; cbn [bind] in H; [|discriminate|].
      - destruct (many_loop _ _ _ i2) as [[i3 l]|e|p] eqn:El; cbn [bind] in H; [| discriminate|].
        + destruct i3; cbn [bind] in H; discriminate.
        + apply parse_rawframe_sound in E as (e2 & -> & Hf); [|assumption..].
          apply is_bytes_app_r in Hi. apply addressable_app_r in Ha.
          eapply many_loop_panic in El as (fs & e3 & r & -> & H2 & H3);
            [|apply parse_rawframe_sound, Hc|apply frame_l_nonempty|assumption..|lia].
          exists (f :: fs), (e2 ++ e3), r, p. rewrite <- app_assoc. split; [reflexivity|].
          split; [now apply seq_l_cons|exact H3].
      - exists [], [], i1, p. split; [reflexivity|]. split; [apply seq_l_nil|exact E]. }
    destruct G as (fs & e2 & r & p & -> & H2 & H3). apply is_bytes_app_r in Hi. apply addressable_app_r in Ha.
    apply frame_panic in H3; [|assumption..]. exists fs, r. split; [|exact H3]. exists h, e1, e2.
    split; [exact H1|]. split; [exact H2|reflexivity].
  - intros [-> H]. apply overruns_frame in H as (fs & r & (h & e1 & e2 & H1 & H2 & ->) & H3).
    unfold parse_raw_file. rewrite (parse_header_accepts _ _ _ H1). cbn [bind].
    apply is_bytes_app_r in Hi. apply is_bytes_app in Hi as [Hi1 Hi2].
    apply frame_panics in H3; [|exact Hi2].
    unfold parse_frames, complete, all_consuming, many1.
    destruct fs as [|f fs].
    + apply seq_l_nil_inv in H2 as ->. cbn [app]. now rewrite H3.
    + apply seq_l_cons_inv in H2 as (a & b & -> & Hf & H2). apply is_bytes_app in Hi1 as [Ha1 Ha2].
      rewrite <- app_assoc, (parse_rawframe_accepts c a (b ++ r) f) by assumption.
      erewrite (many_loop_panic_app _ (frame_l (kept_error c))); [reflexivity| | |exact Ha2|exact H2| |exact H3].
      * intros. now apply parse_rawframe_accepts.
      * apply frame_l_nonempty.
      * rewrite app_length. lia.
Qed.
End Overflow.

Lemma load_panics_exactly c i q : cfg_ok c -> is_bytes i -> addressable c i ->
  (load c i = Panic q <->
   (q = POverflow /\ debug c = true /\ overruns c i) \/ (q = PIndex /\ next_layer c i)).
Proof.
  intros Hc Hi Ha.
  assert (N : next_layer c i -> load c i = Panic PIndex).
  { intros (raw & pal & a & x & b & Hr & Ep & Hl & Hf & Hx). apply load_panic. rewrite parse_file_eq by assumption.
    apply parse_raw_file_iff in Hr; [|assumption..]. rewrite Hr. cbn [bind]. unfold spec_outcome. rewrite Ep, Hl.
    rewrite FileFinal.find_split_inv.
    + unfold cel_failure. replace (_ <? _) with false by lia. reflexivity.
    + eapply Forall_impl; [|exact Hf]. unfold bad_cel. cbn. intros. lia.
    + unfold bad_cel. lia. }
  split.
  - intro H. apply load_panic in H. rewrite parse_file_eq in H by assumption.
    destruct (parse_raw_file c i) as [raw|?|p] eqn:E; cbn [bind] in H; try discriminate.
    + right. unfold spec_outcome in H. destruct (palette_of raw) as [pal|?|p] eqn:Ep; try discriminate;
        [|destruct (palette_of_panic _ _ Ep)].
      destruct (find _ _) as [x|] eqn:Ef; [|discriminate].
      apply FileFinal.find_split in Ef as (a & b & Hl & Hf & Hx). unfold bad_cel in *. unfold cel_failure in H.
      destruct (Z.ltb_spec (layer_count raw) (cc_layer_index x)); [discriminate|].
      injection H as <-. split; [reflexivity|]. exists raw, pal, a, x, b.
      split; [now apply parse_raw_file_iff|]. split; [exact Ep|]. split; [exact Hl|]. split; [|lia].
      eapply Forall_impl; [|exact Hf]. cbn. intros. lia.
    + injection H as <-. left. pose proof E as E'. apply parse_raw_file_overflow in E' as [Hdb ->]; [|assumption].
      split; [reflexivity|]. split; [exact Hdb|]. now apply raw_overruns in E as [_ E].
  - intros [(-> & Hd & H)|[-> H]]; [|exact (N H)].
    apply load_panic. rewrite parse_file_eq by assumption.
    assert (E : parse_raw_file c i = Panic POverflow) by (apply raw_overruns; auto). now rewrite E.
Qed.
