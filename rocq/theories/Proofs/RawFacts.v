(** The raw parser reads exactly the file layout and never panics except for the
    user data size underflow. *)
From Verif.Model Require Import RawFile.
From Verif.Proofs Require Import ParseLib ChunkFacts ChunkFacts2 UserDataFacts.
Local Ltac Zify.zify_post_hook ::= Z.div_mod_to_equations.

(** [sound] on addressable inputs. *)
Definition sound_a (c : cfg) {A} (p : parser A) (L : A -> bytes -> Prop) : Prop :=
  forall i r a, is_bytes i -> addressable c i -> p i = Ok (r, a) -> exists e, i = e ++ r /\ L a e.
Lemma sound_sound_a c {A} (p : parser A) L : sound p L -> sound_a c p L.
Proof. intros H i r a Hi _. apply H, Hi. Qed.
Lemma addressable_app_r c a b : addressable c (a ++ b) -> addressable c b.
Proof. unfold addressable. rewrite zlen_app. pose proof (zlen_nonneg a). lia. Qed.
Lemma addressable_app_l c a b : addressable c (a ++ b) -> addressable c a.
Proof. unfold addressable. rewrite zlen_app. pose proof (zlen_nonneg b). lia. Qed.

Lemma checked_ok {E} c lo w z : lo <= z < lo + 2 ^ w -> @checked E c lo w z = Ok z.
Proof. intro H. unfold checked. replace ((lo <=? z) && (z <? lo + 2 ^ w)) with true by lia. reflexivity. Qed.

Lemma usize_pow c : cfg_ok c -> 2 ^ 32 <= 2 ^ usize_bits c /\ 2 ^ usize_bits c = 2 * 2 ^ (usize_bits c - 1) /\ 2 ^ 31 <= 2 ^ (usize_bits c - 1).
Proof. intros [->| ->]; vm_compute; intuition discriminate. Qed.

(** ** User data *)
Lemma parse_properties_maps_sound c : cfg_ok c ->
  sound_a c (parse_properties_maps c) (properties_area_l (kept_error c)).
Proof.
  intros Hc i r x Hi Ha H. unfold parse_properties_maps in H.
  pone H Hi. pone H Hi. rename z into size, z0 into n.
  do 2 apply addressable_app_r in Ha.
  destruct (usize_pow c Hc) as (P1 & P2 & P3).
  assert (Hs : 8 <= size).
  { destruct (Z.leb_spec 8 size) as [|Hs]; [assumption|exfalso].
    unfold usizec, checked in H. unfold uint in *.
    replace ((0 <=? size - 8) && _) with false in H by lia.
    destruct (debug c); [discriminate|]. cbn [bind] in H.
    assert (W : wrap 0 (usize_bits c) (size - 8) = size - 8 + 2 ^ usize_bits c).
    { unfold wrap. rewrite Z.sub_0_r, Z.add_0_l.
      rewrite <- (Z_mod_plus_full _ 1), Z.mod_small by lia. lia. }
    rewrite W in H. unfold take, addressable in *.
    destruct (Z.ltb_spec (zlen b0) (size - 8 + 2 ^ usize_bits c)); [discriminate|lia]. }
  unfold usizec in H. rewrite checked_ok in H by (unfold uint in *; cbn in *; lia). cbn [bind] in H.
  destruct (take _ _) as [[rest area]|?|?] eqn:Et; cbn [bind] in H; try discriminate.
  apply take_inv in Et as [-> Hl]; [|lia]. apply is_bytes_app_l in Hi.
  assert (Hx : r = rest /\ match x with
    | inl (rest, ms) => exists e', area = e' ++ rest /\ zlen ms = n /\ maps_l ms e'
    | inr err => kept_error c area n err end).
  { destruct (count _ n area) as [[rr ms]|err|?] eqn:Ec; [| |discriminate]; injection H as <- <-; (split; [reflexivity|]).
    - apply count_maps_iff in Ec; [exact Ec|exact Hc|exact Hi|eapply u_nonneg; eassumption].
    - exact Ec. }
  destruct Hx as [-> Hx]. pexists. exists n, area. replace (zlen area + 8) with size by lia.
  split; [assumption|]. split; [assumption|]. split; [exact Hx|reflexivity].
Qed.
Lemma parse_properties_maps_accepts c : cfg_ok c ->
  accepts (parse_properties_maps c) (properties_area_l (kept_error c)).
Proof.
  intros Hc e r x (n & area & H1 & H2 & H3 & ->). unfold parse_properties_maps.
  rewrite <- !app_assoc, parse_dword_as_usize_app by assumption. cbn [bind].
  rewrite parse_dword_as_usize_app by assumption. cbn [bind].
  destruct (usize_pow c Hc) as (P1 & _ & _). pose proof (zlen_nonneg area).
  replace (zlen area + 8 - 8) with (zlen area) by lia.
  unfold usizec. rewrite checked_ok by (unfold u32, uint in *; cbn in *; lia). cbn [bind].
  rewrite take_app by reflexivity. cbn [bind].
  destruct x as [[rest ms]|err].
  - destruct H3 as (e' & -> & <- & H3). rewrite (count_zlen _ ms (e' ++ rest) rest); [reflexivity|].
    apply user_data_complete; [exact Hc|exact H3|]. rewrite app_length. lia.
  - unfold kept_error in H3. now rewrite H3.
Qed.

Lemma udf_bits f k : k = 0 \/ k = 1 \/ k = 2 -> contains (from_bits_truncate UDF_ALL f) (2 ^ k) = Z.testbit f k.
Proof. intros [->|[->| ->]]; apply contains_testbit; (lia || reflexivity). Qed.

Lemma cond_sound_a c {A} (p : parser A) L b :
  sound_a c p L -> sound_a c (cond b p) (fun o e => opt_l L o e /\ (is_some o <-> b = true)).
Proof.
  intros Hp i r o Hi Ha. unfold cond. destruct b.
  - intro H. apply pmap_inv in H as (a & H & ->). apply Hp in H as (e & -> & H); [|exact Hi|exact Ha].
    exists e. split; [reflexivity|]. cbn. tauto.
  - intros [= <- <-]. exists []. split; [reflexivity|]. cbn. split; [reflexivity|]. split; [tauto|congruence].
Qed.

Lemma parse_user_data_sound c : cfg_ok c ->
  sound_a c (parse_user_data_chunk c) (user_data_l (kept_error c)).
Proof.
  intros Hc i r x Hi Ha H. unfold parse_user_data_chunk in H. cbv zeta in H.
  change UDF_HAS_TEXT with (2 ^ 0) in H. change UDF_HAS_COLOR with (2 ^ 1) in H.
  change UDF_HAS_PROPERTIES with (2 ^ 2) in H.
  pone H Hi. pone H Hi. pone H Hi. do 3 apply addressable_app_r in Ha.
  match type of H with bind ?m _ = _ => destruct m as [[? ?]|?|?] eqn:Eq; cbn [bind] in H; try discriminate end.
  eapply cond_sound_a in Eq as (e3 & -> & H3 & H4); [|apply parse_properties_maps_sound, Hc|exact Hi|exact Ha].
  injection H as <- <-. psub. rewrite ?udf_bits in * by auto. pexists. exists z. do 3 eexists.
  cbn [ud_text ud_color ud_properties_maps]. conj_all. reflexivity.
Qed.
Lemma parse_user_data_accepts c : cfg_ok c ->
  accepts (parse_user_data_chunk c) (user_data_l (kept_error c)).
Proof.
  intros Hc e r x (f & e1 & e2 & e3 & H0 & H1 & H2 & H3 & H4 & H5 & H6 & ->).
  unfold parse_user_data_chunk. papp.
  change UDF_HAS_TEXT with (2 ^ 0). change UDF_HAS_COLOR with (2 ^ 1).
  change UDF_HAS_PROPERTIES with (2 ^ 2). rewrite !udf_bits by auto.
  erewrite cond_app; [|apply parse_string_accepts|eassumption|assumption]. cbn [bind].
  erewrite cond_app; [|apply (proj2 parse_color_reads)|eassumption|assumption]. cbn [bind].
  erewrite cond_app; [|apply parse_properties_maps_accepts, Hc|eassumption|assumption]. cbn [bind].
  now destruct x.
Qed.

(** ** Chunks *)
Notation payload c := (payload_l (kept_error c)).
Lemma just_inv {A} (f : A -> chunk) r x : just f r = Ok x -> exists rest a, r = Ok (rest, a) /\ x = f a.
Proof. unfold just. destruct r as [[rest a]|?|?]; cbn [bind]; intro H; inversion H. eauto. Qed.

Lemma parse_chunk_data_sound c code d x : cfg_ok c -> is_bytes d -> addressable c d -> u16 code ->
  parse_chunk_data c (match chunk_type_from_repr code with Some t => inl t | None => inr code end) d = Ok x ->
  chunk_code x = code /\ payload c x d.
Proof.
  intros Hc Hd Ha Hcode. unfold chunk_type_from_repr.
  repeat (match goal with |- context [if ?z =? ?k then _ else _] =>
    destruct (Z.eqb_spec z k) as [->|?]; [|] end;
  [cbn [parse_chunk_data]; intro H;
   first [ injection H as <-; split; [reflexivity|exact I]
         | apply just_inv in H as (rest & a & H & ->); split; [reflexivity|]; cbn [payload_l];
           first
           [ apply parse_cel_iff in H as [_ H]; [exact H|exact Hd]
           | apply parse_cel_extra_iff in H as [_ H]; [exact H|exact Hd]
           | apply parse_mask_iff in H as [_ H]; [exact H|exact Hd]
           | apply parse_user_data_sound in H as (e & -> & H); [exists e, rest; auto|exact Hc|exact Hd|exact Ha]
           | (apply parse_old_palette_sound in H || apply parse_layer_sound in H ||
              apply parse_color_profile_sound in H || apply parse_external_files_sound in H ||
              apply parse_tags_sound in H || apply parse_palette_chunk_sound in H ||
              apply parse_slice_sound in H || apply parse_tileset_sound in H); [|exact Hd];
             destruct H as (e & -> & H); exists e, rest; auto ] ] |]).
  cbn [parse_chunk_data]. intros [= <-]. split; [reflexivity|]. split; [exact Hcode|].
  unfold known_codes. intro Hin. cbn [In] in Hin. intuition congruence.
Qed.

Lemma just_ok {A} (f : A -> chunk) (p : parser A) L a d : accepts p L -> prefix_l L a d ->
  just f (p d) = Ok (f a).
Proof. intros Ha (e & g & H & ->). rewrite (Ha _ _ _ H). reflexivity. Qed.

Lemma parse_chunk_data_complete c d x : cfg_ok c -> is_bytes d ->
  payload c x d ->
  parse_chunk_data c (match chunk_type_from_repr (chunk_code x) with Some t => inl t | None => inr (chunk_code x) end) d = Ok x.
Proof.
  intros Hc Hd H.
  destruct x; cbn [payload_l chunk_code] in *; try (change (chunk_type_from_repr _) with (Some TPalette0004));
    try (unfold chunk_type_from_repr; cbn [Z.eqb Pos.eqb parse_chunk_data]).
  1,2: eapply just_ok; [apply parse_old_palette_accepts|exact H].
  - eapply just_ok; [apply parse_layer_accepts|exact H].
  - unfold just. rewrite (proj2 (parse_cel_iff d [] x Hd)); auto.
  - unfold just. rewrite (proj2 (parse_cel_extra_iff d [] x Hd)); auto.
  - eapply just_ok; [apply parse_color_profile_accepts|exact H].
  - eapply just_ok; [apply parse_external_files_accepts, Hc|exact H].
  - unfold just. rewrite (proj2 (parse_mask_iff d [] x Hd)); auto.
  - reflexivity.
  - eapply just_ok; [apply parse_tags_accepts|exact H].
  - eapply just_ok; [apply parse_palette_chunk_accepts, Hc|exact H].
  - eapply just_ok; [apply parse_user_data_accepts, Hc|exact H].
  - eapply just_ok; [apply parse_slice_accepts, Hc|exact H].
  - eapply just_ok; [apply parse_tileset_accepts|exact H].
  - destruct H as [_ H]. unfold known_codes in H. cbn [In] in H.
    repeat match goal with |- context [?z =? ?k] =>
      destruct (Z.eqb_spec z k) as [->|?]; [exfalso; apply H; intuition|] end.
    reflexivity.
Qed.

Lemma dword_size_sound f : sound (dword_size f) (fun v e => 4 <= v /\ u32 v /\ e = le 4 v).
Proof.
  intros i r a Hi H. unfold dword_size in H. pone H Hi.
  destruct (Z.leb_spec 4 z); [|discriminate]. injection H as <- <-. pexists. auto.
Qed.
Lemma dword_size_app f v r : 4 <= v -> u32 v -> dword_size f (le 4 v ++ r) = Ok (r, v).
Proof. intros H Hv. unfold dword_size. papp. replace (4 <=? v) with true by lia. reflexivity. Qed.
Lemma u32c_ok {E} c v : 0 <= v -> v < 2 ^ 32 -> @u32c E c v = Ok v.
Proof. intros H1 H2. unfold u32c. apply checked_ok. lia. Qed.
Lemma u32_lt v : u32 v -> 0 <= v < 2 ^ 32.
Proof. exact (fun H => H). Qed.

(** The common framing of chunks and frames: a size that counts itself. *)
Lemma framed_inv c {A} (k : bytes -> bytes -> out nom_err A) i x : is_bytes i ->
  (let* (input, size) := dword_size EInvalidFrameSize i in
   let* n := u32c c (size - 4) in
   let* (rest, input) := take n input in k rest input) = Ok x ->
  exists d rest, i = le 4 (zlen d + 4) ++ d ++ rest /\ u32 (zlen d + 4) /\ k rest d = Ok x.
Proof.
  intros Hi H.
  destruct (dword_size _ i) as [[i1 size]|?|?] eqn:E; cbn [bind] in H; try discriminate.
  apply dword_size_sound in E as (e & -> & H4 & Hs & ->); [|exact Hi].
  pose proof (u32_lt _ Hs). rewrite u32c_ok in H by lia. cbn [bind] in H.
  destruct (take _ i1) as [[rest d]|?|?] eqn:Et; cbn [bind] in H; try discriminate.
  apply take_inv in Et as [-> Hl]; [|lia]. exists d, rest.
  replace (zlen d + 4) with size by lia. auto.
Qed.
Lemma framed_app c {A} (k : bytes -> bytes -> out nom_err A) d r : u32 (zlen d + 4) ->
  (let* (input, size) := dword_size EInvalidFrameSize (le 4 (zlen d + 4) ++ d ++ r) in
   let* n := u32c c (size - 4) in
   let* (rest, input) := take n input in k rest input) = k r d.
Proof.
  intro H. pose proof (zlen_nonneg d). rewrite dword_size_app by (lia || assumption). cbn [bind].
  pose proof (u32_lt _ H). rewrite u32c_ok by lia. cbn [bind].
  rewrite take_app by lia. reflexivity.
Qed.
Lemma framed_zlen d : zlen (le 4 (zlen d + 4) ++ d) = zlen d + 4.
Proof. rewrite zlen_app, zlen_le. lia. Qed.

Lemma chunk_l_alt me x e : chunk_l me x e <->
  exists d, u32 (zlen d + 6) /\ payload_l me x d /\
    e = le 4 (zlen d + 6) ++ le 2 (chunk_code x) ++ d.
Proof.
  assert (Z6 : forall n v d, zlen (le 4 n ++ le 2 v ++ d) = zlen d + 6).
  { intros. rewrite !zlen_app, !zlen_le. lia. }
  split; intros (d & H1 & H2 & H3); exists d.
  - assert (Hz := f_equal zlen H3). rewrite Z6 in Hz. rewrite Hz in H1, H3. auto.
  - subst e. rewrite Z6. auto.
Qed.

Lemma parse_chunk_sound c : cfg_ok c -> sound_a c (parse_chunk c) (chunk_l (kept_error c)).
Proof.
  intros Hc i r x Hi Ha H. apply (framed_inv c) in H as (d0 & rest & -> & Hs & H); [|exact Hi].
  apply is_bytes_app_r, is_bytes_app_l in Hi. apply addressable_app_r, addressable_app_l in Ha.
  destruct (parse_chunk_type d0) as [[d t]|?|?] eqn:E; cbn [bind] in H; try discriminate.
  apply pmap_inv in E as (code & E & ->).
  apply word_sound in E as (e & -> & Hcode & ->); [|exact Hi].
  apply is_bytes_app_r in Hi. apply addressable_app_r in Ha.
  match type of H with bind ?m _ = _ => destruct m as [y|?|?] eqn:Eq; cbn [bind] in H; try discriminate end.
  injection H as <- <-.
  apply parse_chunk_data_sound in Eq as [Eq1 Eq2]; [|assumption..].
  rewrite zlen_app, zlen_le in *. pexists. apply chunk_l_alt. exists d. rewrite Eq1.
  replace (zlen d + 6) with (Z.of_nat 2 + zlen d + 4) by lia. auto.
Qed.
Lemma chunk_code_u16 me x d : payload_l me x d -> u16 (chunk_code x).
Proof.
  destruct x; cbn [payload_l chunk_code]; intro H; try (unfold u16, uint; cbn; lia). apply H.
Qed.
Lemma parse_chunk_accepts c e r x : cfg_ok c -> is_bytes e -> chunk_l (kept_error c) x e ->
  parse_chunk c (e ++ r) = Ok (r, x).
Proof.
  intros Hc Hb H. apply chunk_l_alt in H as (d & Hs & Hp & ->).
  replace (zlen d + 6) with (zlen (le 2 (chunk_code x) ++ d) + 4) in * by (rewrite zlen_app, zlen_le; lia).
  do 2 apply is_bytes_app_r in Hb.
  unfold parse_chunk. rewrite <- app_assoc, framed_app by assumption.
  unfold parse_chunk_type. erewrite pmap_app by (apply word_app; eapply chunk_code_u16, Hp). cbn [bind].
  rewrite parse_chunk_data_complete by assumption. reflexivity.
Qed.

Lemma count_nat_sound_a c {A} (p : parser A) L n :
  sound_a c p L -> sound_a c (count_nat p n) (fun l e => length l = n /\ seq_l L l e).
Proof.
  intro Hp. induction n as [|n IH]; intros i r l Hi Ha H; cbn [count_nat] in H.
  - injection H as <- <-. exists []. split; [reflexivity|]. split; [reflexivity|apply seq_l_nil].
  - pbind H. pbind H. injection H as <- <-.
    apply Hp in E as (e1 & -> & H1); [|exact Hi|exact Ha]. apply is_bytes_app_r in Hi. apply addressable_app_r in Ha.
    apply IH in E0 as (e2 & -> & H2 & H3); [|exact Hi|exact Ha].
    exists (e1 ++ e2). rewrite <- app_assoc. split; [reflexivity|].
    split; [cbn; congruence|]. now apply seq_l_cons.
Qed.
Lemma count_nat_app_b {A} (p : parser A) (L : A -> bytes -> Prop) l e r :
  (forall e r a, is_bytes e -> L a e -> p (e ++ r) = Ok (r, a)) ->
  is_bytes e -> seq_l L l e -> count_nat p (length l) (e ++ r) = Ok (r, l).
Proof.
  intros Hp. revert e; induction l as [|x l IH]; intros e Hb H; cbn [length count_nat].
  - apply seq_l_nil_inv in H. now subst.
  - apply seq_l_cons_inv in H as (e1 & e2 & -> & H1 & H2). apply is_bytes_app in Hb as [Hb1 Hb2].
    rewrite <- app_assoc, (Hp _ _ _ Hb1 H1). cbn [bind]. rewrite (IH _ Hb2 H2). reflexivity.
Qed.

(** ** Frames *)
Lemma frame_l_alt me f e : frame_l me f e <->
  exists old new g1 body g2,
    u32 (zlen body + zlen g2 + 16) /\ u16 old /\ u16 (rf_duration f) /\ zlen g1 = 2 /\ u32 new /\
    zlen (rf_chunks f) = (if new =? 0 then old else new) /\
    seq_l (chunk_l me) (rf_chunks f) body /\
    e = le 4 (zlen body + zlen g2 + 16) ++ le 2 0xF1FA ++ le 2 old ++ le 2 (rf_duration f) ++ g1 ++
        le 4 new ++ body ++ g2.
Proof.
  assert (Z6 : forall n old dur g1 new body g2 : _, zlen g1 = 2 ->
    zlen (le 4 n ++ le 2 0xF1FA ++ le 2 old ++ le 2 dur ++ g1 ++ le 4 new ++ body ++ g2)
    = zlen body + zlen g2 + 16).
  { intros. rewrite !zlen_app, !zlen_le. lia. }
  split; intros (old & new & g1 & body & g2 & H1 & H2 & H3 & H4 & H5 & H6 & H7 & H8);
    exists old, new, g1, body, g2.
  - assert (Hz := f_equal zlen H8). rewrite Z6 in Hz by exact H4. rewrite Hz in H1, H8. auto 10.
  - subst e. rewrite Z6 by exact H4. auto 10.
Qed.
Lemma frame_l_zlen me f e : frame_l me f e -> 16 <= zlen e.
Proof.
  intro H. apply frame_l_alt in H as (old & new & g1 & body & g2 & H1 & H2 & H3 & H4 & H5 & H6 & H7 & ->).
  rewrite !zlen_app, !zlen_le. pose proof (zlen_nonneg body). pose proof (zlen_nonneg g2). lia.
Qed.

Lemma parse_rawframe_sound c : cfg_ok c -> sound_a c (parse_rawframe c) (frame_l (kept_error c)).
Proof.
  intros Hc i r x Hi Ha H. apply (framed_inv c) in H as (d0 & rest & -> & Hs & H); [|exact Hi].
  apply is_bytes_app_r, is_bytes_app_l in Hi. apply addressable_app_r, addressable_app_l in Ha.
  rewrite app_assoc.
  pone H Hi. pone H Hi. pone H Hi. pone H Hi. pone H Hi. do 5 apply addressable_app_r in Ha. psub.
  match type of H with bind ?m _ = _ => destruct m as [[g2 l]|?|?] eqn:Eq; cbn [bind] in H; try discriminate end.
  unfold parse_chunks, count in Eq.
  apply (count_nat_sound_a c _ (chunk_l (kept_error c))) in Eq as (body & -> & Hn & Hb);
    [|apply parse_chunk_sound, Hc|exact Hi|exact Ha].
  injection H as <- <-. eexists. split; [reflexivity|]. apply frame_l_alt.
  match goal with H : zlen ?g = 2 |- _ => rename g into g1, H into Hg1 end.
  exists z, z1, g1, body, g2. cbn [rf_duration rf_chunks].
  rewrite !zlen_app, !zlen_le in Hs.
  rewrite !zlen_app, !zlen_le.
  match goal with |- context [zlen body + zlen ?g2 + 16] =>
    replace (zlen body + zlen g2 + 16) with (zlen FRAME_MAGIC_NUMBER + (Z.of_nat 2 + (Z.of_nat 2 +
      (zlen g1 + (Z.of_nat 4 + (zlen body + zlen g2))))) + 4)
      by (rewrite Hg1; change (zlen FRAME_MAGIC_NUMBER) with 2; lia) end.
  conj_all. split; [|].
  { unfold zlen. rewrite Hn. rewrite Z2Nat.id; [reflexivity|].
    destruct (z1 =? 0); eapply u_nonneg; eassumption. }
  split; [exact Hb|]. reflexivity.
Qed.
Lemma parse_rawframe_accepts c e r x : cfg_ok c -> is_bytes e -> frame_l (kept_error c) x e ->
  parse_rawframe c (e ++ r) = Ok (r, x).
Proof.
  intros Hc Hb H. apply frame_l_alt in H as (old & new & g1 & body & g2 & H1 & H2 & H3 & H4 & H5 & H6 & H7 & ->).
  match goal with |- context [le 4 ?n ++ ?d] =>
    replace n with (zlen d + 4) in * by (rewrite !zlen_app, !zlen_le; lia) end.
  do 6 apply is_bytes_app_r in Hb. apply is_bytes_app_l in Hb.
  unfold parse_rawframe. rewrite <- app_assoc, framed_app by assumption.
  change (le 2 61946) with FRAME_MAGIC_NUMBER. papp.
  rewrite parse_dword_as_usize_app by assumption. cbn [bind].
  unfold parse_chunks, count. rewrite <- H6. unfold zlen. rewrite Nat2Z.id.
  erewrite count_nat_app_b; [|intros; apply parse_chunk_accepts; eassumption|exact Hb|exact H7].
  cbn [bind]. now destruct x.
Qed.

(** ** The file *)
Lemma many_loop_sound c {A} (p : parser A) L : sound_a c p L -> forall fuel i r acc l,
  is_bytes i -> addressable c i ->
  many_loop p fuel acc i = Ok (r, l) -> exists e l', i = e ++ r /\ l = rev acc ++ l' /\ seq_l L l' e.
Proof.
  intros Hp. induction fuel as [|fuel IH]; intros i r acc l Hi Ha H; cbn [many_loop] in H; [discriminate|].
  destruct (p i) as [[i' a]|[e|e]|q] eqn:E; try discriminate.
  - destruct (_ =? _)%nat; [discriminate|].
    apply Hp in E as (e1 & -> & H1); [|assumption..]. apply is_bytes_app_r in Hi. apply addressable_app_r in Ha.
    apply IH in H as (e2 & l' & -> & -> & H2); [|assumption..].
    exists (e1 ++ e2), (a :: l'). rewrite <- app_assoc. split; [reflexivity|].
    cbn [rev]. rewrite <- app_assoc. split; [reflexivity|]. now apply seq_l_cons.
  - injection H as <- <-. exists [], []. rewrite app_nil_r. split; [reflexivity|]. split; [reflexivity|apply seq_l_nil].
Qed.
Lemma many_loop_complete {A} (p : parser A) (L : A -> bytes -> Prop) :
  (forall e r a, is_bytes e -> L a e -> p (e ++ r) = Ok (r, a)) ->
  (forall a e, L a e -> e <> []) -> (exists err, p [] = Err (NError err)) ->
  forall l e fuel acc, is_bytes e -> seq_l L l e -> (length e < fuel)%nat ->
  many_loop p fuel acc e = Ok ([], rev acc ++ l).
Proof.
  intros Hp Hne (err & Hnil). induction l as [|x l IH]; intros e fuel acc Hb H Hf;
    (destruct fuel as [|fuel]; [lia|]); cbn [many_loop].
  - apply seq_l_nil_inv in H as ->. rewrite Hnil, app_nil_r. reflexivity.
  - apply seq_l_cons_inv in H as (e1 & e2 & -> & H1 & H2). apply is_bytes_app in Hb as [Hb1 Hb2].
    rewrite (Hp _ _ _ Hb1 H1). rewrite app_length in *.
    assert (length e1 <> 0)%nat by (intro Hz; apply (Hne _ _ H1); now destruct e1).
    replace (length e2 =? length e1 + length e2)%nat with false by lia.
    rewrite (IH e2) by (assumption || lia). cbn [rev]. rewrite <- app_assoc. reflexivity.
Qed.

Lemma parse_frames_iff c i fs : cfg_ok c -> is_bytes i -> addressable c i ->
  parse_frames c i = Ok ([], fs) <-> fs <> [] /\ seq_l (frame_l (kept_error c)) fs i.
Proof.
  intros Hc Hi Ha. unfold parse_frames, complete, all_consuming, many1. split.
  - destruct (parse_rawframe c i) as [[i1 f]|?|?] eqn:E; cbn [bind]; try discriminate.
    apply parse_rawframe_sound in E as (e1 & -> & H1); [|assumption..].
    apply is_bytes_app_r in Hi. apply addressable_app_r in Ha.
    destruct (many_loop _ _ _ i1) as [[i2 l]|?|?] eqn:E; cbn [bind]; try discriminate.
    destruct i2; [|discriminate]. intros [= <-].
    eapply many_loop_sound in E as (e2 & l' & -> & -> & H2); [|apply parse_rawframe_sound, Hc|assumption..].
    rewrite app_nil_r. split; [discriminate|]. now apply seq_l_cons.
  - intros [Hne H]. destruct fs as [|f fs]; [congruence|].
    apply seq_l_cons_inv in H as (e1 & e2 & -> & H1 & H2). apply is_bytes_app in Hi as [Hb1 Hb2].
    rewrite (parse_rawframe_accepts c e1 e2 f) by assumption.
    rewrite many_loop_complete with (L := frame_l (kept_error c)) (l := fs);
      [reflexivity| | | |exact Hb2|exact H2|lia].
    + intros. apply parse_rawframe_accepts; assumption.
    + intros a e Hf ->. apply frame_l_zlen in Hf. cbn in Hf. lia.
    + eexists. reflexivity.
Qed.
Lemma parse_frames_rest c i r fs : parse_frames c i = Ok (r, fs) -> r = [].
Proof.
  unfold parse_frames, complete, all_consuming.
  destruct (many1 _ i) as [[i2 l]|?|?]; cbn [bind]; try discriminate.
  destruct i2; [|discriminate]. now intros [= <-].
Qed.

Lemma parse_raw_file_iff c i f : cfg_ok c -> is_bytes i -> addressable c i ->
  parse_raw_file c i = Ok f <-> raw_file_l (kept_error c) f i.
Proof.
  intros Hc Hi Ha. unfold parse_raw_file. split.
  - intro H. destruct (parse_header i) as [[i1 h]|?|?] eqn:E; cbn [bind] in H; try discriminate.
    apply parse_header_sound in E as (e1 & -> & H1); [|assumption].
    apply is_bytes_app_r in Hi. apply addressable_app_r in Ha.
    destruct (parse_frames c i1) as [[r fs]|?|?] eqn:E; cbn [bind] in H; try discriminate.
    injection H as <-. pose proof (parse_frames_rest _ _ _ _ E) as ->.
    apply parse_frames_iff in E as [H2 H3]; [|assumption..].
    exists e1, i1. auto.
  - intros (e1 & e2 & H1 & H2 & H3 & ->). rewrite (parse_header_accepts _ _ _ H1). cbn [bind].
    apply is_bytes_app_r in Hi. apply addressable_app_r in Ha.
    rewrite (proj2 (parse_frames_iff c e2 (rw_frames f) Hc Hi Ha)); [|auto]. cbn [bind]. now destruct f.
Qed.
