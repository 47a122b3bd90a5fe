(** The error reported for a file is that of its first mistake. *)
From Verif.Model Require Import Loader.
From Verif.Spec Require Import FileSpec LoaderSpec Errors Mistakes Loads FirstMistake.
From Verif.Proofs Require Import ParseLib ChunkFacts ChunkFacts2 UserDataFacts RawFacts ErrorProps LoadsProps MistakeProps.

Definition ok (c : cfg) (i : bytes) : Prop := is_bytes i /\ addressable c i.
Lemma ok_r c a b : ok c (a ++ b) -> ok c b.
Proof. intros [H1 H2]. split; [now apply is_bytes_app_r in H1|now apply addressable_app_r in H2]. Qed.
Lemma ok_l c a b : ok c (a ++ b) -> ok c a.
Proof. intros [H1 H2]. split; [now apply is_bytes_app_l in H1|now apply addressable_app_l in H2]. Qed.

(** [p] fails exactly on the bad inputs. *)
Definition told (c : cfg) {A} (p : parser A) (B : bad) : Prop :=
  forall i err, ok c i -> (p i = Err err <-> B i err).

Section Steps.
Context (c : cfg) {T : Type}.
Implicit Types (i : bytes) (err : nom_err).

Lemma st_uint n ws K (k : bytes * Z -> out nom_err T) i err : ok c i ->
  (forall v r, ok c r -> uint n v -> (k (r, v) = Err err <-> fields ws (fun vs => K (v :: vs)) r err)) ->
  bind (le_uint n i) k = Err err <-> fields (n :: ws) K i err.
Proof.
  intros Hi Hk. cbn [fields]. destruct (le_uint n i) as [[r v]|e|q] eqn:E; cbn [bind].
  - apply le_uint_sound in E as (b & -> & Hv & ->); [|apply Hi]. pose proof (ok_r _ _ _ Hi) as Hr. rewrite (Hk v r Hr Hv). split.
    + intro H. right. exists v, r. auto.
    + intros [[H _]|(v' & r' & E & Hv' & H)]; [rewrite zlen_app, zlen_le in H; unfold zlen in H; lia|].
      apply app_inv_length in E as [E <-]; [|rewrite !length_le; reflexivity].
      apply le_inj in E; [|assumption..]. now subst v'.
  - apply uint_err in E as [E ->]. split.
    + intro H. injection H as <-. left. split; auto.
    + intros [[_ ->]|(v & r & -> & _)]; [reflexivity|]. rewrite zlen_app, zlen_le in E. unfold zlen in E. lia.
  - destruct (le_uint_safe _ _ _ E).
Qed.
Lemma st_int n ws K (k : bytes * Z -> out nom_err T) i err : ok c i ->
  (forall v r, ok c r -> uint n v ->
     (k (r, to_signed (8 * Z.of_nat n) v) = Err err <-> fields ws (fun vs => K (v :: vs)) r err)) ->
  bind (le_int n i) k = Err err <-> fields (n :: ws) K i err.
Proof. intros Hi Hk. unfold le_int. rewrite bind_bind. apply st_uint; [exact Hi|]. intros v r Hr Hv. cbn [bind]. now apply Hk. Qed.
Lemma st_take n ws K (k : bytes * bytes -> out nom_err T) i err : ok c i ->
  (forall v r, ok c r -> uint n v -> (k (r, le n v) = Err err <-> fields ws (fun vs => K (v :: vs)) r err)) ->
  bind (take (Z.of_nat n) i) k = Err err <-> fields (n :: ws) K i err.
Proof.
  intros Hi Hk.
  assert (E : bind (take (Z.of_nat n) i) k = bind (le_uint n i) (fun x => k (fst x, le n (snd x)))).
  { unfold take, le_uint, zlen. destruct (Z.ltb_spec (Z.of_nat (length i)) (Z.of_nat n));
      destruct (Nat.ltb_spec (length i) n); try lia; [reflexivity|]. cbn [bind fst snd]. rewrite Nat2Z.id.
    do 2 f_equal. symmetry. replace n with (length (firstn n i)) at 1 by (rewrite firstn_length; lia).
    apply le_le_value. apply (is_bytes_app_l _ (skipn n i)). rewrite firstn_skipn. apply Hi. }
  rewrite E. apply st_uint; [exact Hi|]. intros v r Hr Hv. cbn [fst snd]. now apply Hk.
Qed.
Lemma st_usize ws K (k : bytes * Z -> out nom_err T) i err : cfg_ok c -> ok c i ->
  (forall v r, ok c r -> uint 4 v -> (k (r, v) = Err err <-> fields ws (fun vs => K (v :: vs)) r err)) ->
  bind (parse_dword_as_usize c i) k = Err err <-> fields (4%nat :: ws) K i err.
Proof. intros Hc Hi Hk. rewrite usize_dword by (assumption || apply Hi). now apply st_uint. Qed.
Lemma st_text K (k : bytes * bytes -> out nom_err T) i err : ok c i ->
  (forall s r, ok c r -> (k (r, s) = Err err <-> K r err)) ->
  bind (parse_string i) k = Err err <-> text K i err.
Proof.
  intros Hi Hk. unfold text. rewrite <- (string_fails i err (proj1 Hi)).
  destruct (parse_string i) as [[r s]|e|q] eqn:E; cbn [bind].
  - assert (E0 := E). apply parse_string_sound in E as (b & -> & Hs); [|apply Hi]. rewrite (Hk s r (ok_r _ _ _ Hi)). split.
    + intro H. right. exists s, b, r. auto.
    + intros [H|(s' & b' & r' & E & Hs' & H)]; [discriminate|]. rewrite E in E0.
      rewrite (parse_string_app _ _ _ Hs') in E0. now injection E0 as -> ->.
  - split.
    + intro H. injection H as ->. now left.
    + intros [H|(s & b & r & -> & Hs & _)]; [now injection H as ->|]. rewrite (parse_string_app _ _ _ Hs) in E. discriminate.
  - destruct (parse_string_safe _ _ E).
Qed.
Lemma st_several {A} (p : parser A) L B n (k : bytes * list A -> out nom_err T) i err : ok c i ->
  sound_a c p L -> (forall a e r, is_bytes e -> L a e -> p (e ++ r) = Ok (r, a)) -> told c p B ->
  (forall x, k x <> Err err) ->
  bind (count p n i) k = Err err <-> several L B n i err.
Proof.
  intros Hi Hs Ha HB Hk. unfold several, count.
  assert (Hz : forall l : list A, zlen l < n <-> (length l < Z.to_nat n)%nat) by (intro; unfold zlen; lia).
  setoid_rewrite Hz. clear Hz.
  transitivity (count_nat p (Z.to_nat n) i = Err err).
  { destruct (count_nat _ _ i) as [x|e|q]; cbn [bind]; split; intro H; try discriminate H; try (now injection H as ->).
    destruct (Hk x H). }
  revert i Hi. induction (Z.to_nat n) as [|m IH]; intros i Hi; cbn [count_nat].
  { split; [discriminate|]. intros (l & e & r & _ & _ & H & _). lia. }
  split.
  - destruct (p i) as [[r a]|e|q] eqn:E; cbn [bind]; try discriminate.
    + apply Hs in E as (e & -> & H); [|apply Hi..]. apply ok_r in Hi.
      destruct (count_nat p m r) as [[r2 l]|e2|q] eqn:E2; cbn [bind]; try discriminate. intro H2. injection H2 as ->.
      apply IH in E2 as (l & e3 & r3 & -> & H3 & H4 & H5); [|exact Hi].
      exists (a :: l), (e ++ e3), r3. rewrite <- app_assoc. split; [reflexivity|]. split; [now apply seq_l_cons|].
      cbn [length]. split; [lia|exact H5].
    + intro H. injection H as ->. apply HB in E; [|exact Hi]. exists [], [], i.
      split; [reflexivity|]. split; [apply seq_l_nil|]. cbn [length]. split; [lia|exact E].
  - intros ([|a l] & e & r & -> & H & Hm & H').
    + apply seq_l_nil_inv in H as ->. cbn [app] in *. apply HB in H'; [|exact Hi]. now rewrite H'.
    + apply seq_l_cons_inv in H as (e1 & e2 & -> & H1 & H2). rewrite <- app_assoc in *.
      rewrite (Ha a e1 (e2 ++ r)) by (assumption || apply (ok_l _ _ _ Hi)). cbn [bind]. apply ok_r in Hi. cbn [length] in Hm.
      assert (E : count_nat p m (e2 ++ r) = Err err).
      { apply IH; [exact Hi|]. exists l, e2, r. repeat split; auto. lia. }
      now rewrite E.
Qed.
Lemma st_fine (x : T) i err : Ok x = Err err <-> fine i err.
Proof. split; [discriminate|intros []]. Qed.
Lemma st_wrong e i err : @failure T e = Err err <-> wrong e i err.
Proof. unfold failure, wrong. split; [intro H; now injection H|now intros ->]. Qed.
End Steps.

Lemma acc {A} (p : parser A) L : accepts p L -> forall a e r, is_bytes e -> L a e -> p (e ++ r) = Ok (r, a).
Proof. intros H a e r _ Ha. now apply H. Qed.

Ltac st1 c :=
  match goal with
  | |- bind (bind _ _) _ = _ <-> _ => rewrite bind_bind
  | |- bind (Ok _) _ = _ <-> _ => cbn [bind]
  | |- bind (le_uint ?n _) _ = _ <-> fields (?n :: _) _ _ _ => apply (st_uint c); [assumption|intros ? ? ? ?]
  | |- bind (le_int ?n _) _ = _ <-> fields (?n :: _) _ _ _ => apply (st_int c); [assumption|intros ? ? ? ?]
  | |- bind (take _ _) _ = _ <-> fields (?n :: _) _ _ _ => apply (st_take c n); [assumption|intros ? ? ? ?]
  | |- bind (parse_dword_as_usize _ _) _ = _ <-> fields _ _ _ _ => apply (st_usize c); [assumption|assumption|intros ? ? ? ?]
  | |- bind (parse_string _) _ = _ <-> text _ _ _ => apply (st_text c); [assumption|intros ? ? ?]
  | |- _ <-> fields [] ?K ?r ?e => change (fields [] K r e) with (K [] r e)
  | |- bind (failure ?e) _ = _ <-> _ => change (failure e) with (@Err nom_err (bytes * Z) (NFailure e)); cbn [bind]
  | |- Err (NFailure _) = Err _ <-> wrong _ _ _ => apply st_wrong
  | |- Ok _ = Err _ <-> fine _ _ => apply st_fine
  | |- failure _ = Err _ <-> wrong _ _ _ => apply st_wrong
  end.
Ltac start := intros i err Hi.
Ltac st c :=
  unfold parse_color, parse_rgb, fixed, parse_nine_patch, parse_pivot, parse_tileset_external_file, cond, pmap, flat_map_p;
  unfold byte, word, dword, short, long; cbv beta iota zeta;
  repeat (st1 c; cbv beta iota zeta).

Section Chunks.
Context (c : cfg) (Hc : cfg_ok c).

Lemma rgb_told : told c parse_rgb (fields [1; 1; 1]%nat (fun _ => fine)).
Proof. start. st c. Qed.
Lemma packet_told : told c parse_packet packet_bad.
Proof.
  start. unfold parse_packet, packet_bad. unfold byte. st c.
  apply (st_several c parse_rgb); [assumption|apply sound_sound_a; auto with psound|apply acc, (proj2 parse_rgb_reads)|apply rgb_told|intros [? ?]; discriminate].
Qed.
Lemma old_palette_told : told c parse_old_palette_chunk old_palette_bad.
Proof.
  start. unfold parse_old_palette_chunk, old_palette_bad, word. st c.
  apply (st_several c); [assumption|apply sound_sound_a, parse_packet_sound|apply acc, parse_packet_accepts|apply packet_told|intros [? ?]; discriminate].
Qed.
Lemma entry_told : told c parse_palette_entry entry_bad.
Proof.
  start. unfold parse_palette_entry, entry_bad, word, parse_color, byte. st c.
  rewrite pef_has_name. unfold cond, if_, pmap. destruct (Z.testbit _ 0); st c.
Qed.
Lemma palette_told : told c (parse_palette_chunk c) palette_bad.
Proof.
  start. unfold parse_palette_chunk, palette_bad, parse_dword_as_u8, dword. st c.
  rewrite Z.leb_antisym. destruct (Z.ltb_spec v0 256); cbn [negb]; st c.
  rewrite Z.leb_antisym. destruct (Z.ltb_spec v1 256); cbn [negb]; st c.
  destruct (v1 <? v0); st c.
  apply (st_several c); [assumption|apply sound_sound_a, parse_palette_entry_sound|apply acc, parse_palette_entry_accepts|apply entry_told|intros [? ?]; discriminate].
Qed.
Lemma layer_told : told c parse_layer_chunk layer_bad.
Proof.
  start. unfold parse_layer_chunk, layer_bad, word, byte. st c.
  assert (E : match layer_type_from v0 with LTilemap => true | _ => false end = (v0 =? 2)).
  { pose proof (layer_type_tilemap v0 ltac:(unfold uint in *; lia)) as E. apply Bool.eq_iff_eq_true. rewrite E. symmetry. apply Z.eqb_eq. }
  rewrite E. unfold cond, pmap, dword. destruct (v0 =? 2); st c.
Qed.
Lemma cel_told : told c parse_cel_chunk cel_bad.
Proof.
  start. unfold parse_cel_chunk, cel_bad. st c.
  destruct (cel_type_spec v3 ltac:(unfold uint in *; lia)) as [[T E]|[[T E]|[[T E]|[[T E]|[[T E]|[T E]]]]]]; rewrite E;
    cbn [parse_cel_content]; [rewrite T; cbn [Z.eqb Pos.eqb orb]; st c ..|].
  replace (v3 =? 0) with false by lia. replace (v3 =? 1) with false by lia. replace (v3 =? 2) with false by lia.
  replace (v3 =? 3) with false by lia. cbn [orb]. st c.
Qed.
Lemma cel_extra_told : told c parse_cel_extra_chunk cel_extra_bad.
Proof. start. unfold parse_cel_extra_chunk, cel_extra_bad. st c. Qed.

Lemma st_ends {T} n (k : bytes * bytes -> out nom_err T) i err : 0 <= n -> ok c i -> (forall x, k x <> Err err) ->
  bind (take n i) k = Err err <-> ends n i err.
Proof.
  intros Hn Hi Hk. unfold take, ends. destruct (Z.ltb_spec (zlen i) n); cbn [bind]; split.
  - intro H'. injection H' as <-. auto.
  - now intros [_ ->].
  - intro H'. destruct (Hk _ H').
  - intros [H' _]. lia.
Qed.
Ltac ends := rewrite ?bind_bind; apply st_ends; [unfold uint in *; lia|assumption|intros [? ?]; discriminate].

Lemma color_profile_told : told c parse_color_profile color_profile_bad.
Proof.
  start. unfold parse_color_profile, color_profile_bad, blob_bad. st c.
  destruct (profile_type_spec v ltac:(unfold uint in *; lia)) as [[T E]|[[T E]|[[T E]|[[T E]|[T E]]]]]; rewrite E; 
    [rewrite T; cbn [Z.eqb Pos.eqb]; st c ..|].
  - ends.
  - replace (v =? 2) with false by lia. st c.
Qed.
Lemma external_file_told : told c parse_external_file external_file_bad.
Proof. start. unfold parse_external_file, external_file_bad. st c. Qed.
Lemma external_files_told : told c (parse_external_files_chunk c) external_files_bad.
Proof.
  start. unfold parse_external_files_chunk, external_files_bad. st c.
  apply (st_several c); [assumption|apply sound_sound_a, parse_external_file_sound|apply acc, parse_external_file_accepts|apply external_file_told|intros [? ?]; discriminate].
Qed.
Lemma mask_told : told c parse_mask_chunk mask_bad.
Proof. start. unfold parse_mask_chunk, mask_bad. st c. Qed.
Lemma tag_told : told c parse_tag tag_bad.
Proof. start. unfold parse_tag, tag_bad. st c. destruct (v0 <? v); st c. Qed.
Lemma tags_told : told c parse_tags_chunk tags_bad.
Proof.
  start. unfold parse_tags_chunk, tags_bad. st c.
  apply (st_several c); [assumption|apply sound_sound_a, parse_tag_sound|apply acc, parse_tag_accepts|apply tag_told|intros [? ?]; discriminate].
Qed.
Lemma slice_key_told f : told c (parse_slice_key (from_bits_truncate SF_ALL f)) (slice_key_bad f).
Proof.
  start. unfold parse_slice_key, slice_key_bad. change SF_NINE_PATCH with (2 ^ 0). change SF_PIVOT with (2 ^ 1). rewrite !sf_bits by auto.
  destruct (Z.testbit f 0), (Z.testbit f 1); cbn [app]; st c.
Qed.
Lemma slice_told : told c (parse_slice_chunk c) slice_bad.
Proof.
  start. unfold parse_slice_chunk, slice_bad. st c.
  apply (st_several c); [assumption|apply sound_sound_a, parse_slice_key_sound|apply acc, parse_slice_key_accepts|apply slice_key_told|intros [? ?]; discriminate].
Qed.
Lemma tileset_told : told c parse_tileset_chunk tileset_bad.
Proof.
  start. unfold parse_tileset_chunk, tileset_bad, parse_tiles, blob_bad. st c.
  change TF_EXTERNAL_FILE with (2 ^ 0). change TF_TILES with (2 ^ 1). rewrite !tf_bits by auto.
  destruct (Z.testbit v0 0), (Z.testbit v0 1); st c; ends.
Qed.

Lemma area_told : told c (parse_properties_maps c) (area_end c).
Proof.
  start. unfold parse_properties_maps, area_end. st c.
  destruct (usize_pow c Hc) as (P1 & P2 & P3). change (uint 4 v) with (0 <= v < 2 ^ 32) in *.
  destruct (Z.leb_spec 8 v) as [Hs|Hs].
  - unfold usizec. rewrite checked_ok by lia. cbn [bind]. apply st_ends; [lia|assumption|].
    intros [b area]. destruct (count _ _ _); discriminate.
  - unfold usizec, checked. replace ((0 <=? v - 8) && _) with false by lia.
    destruct (debug c); [cbn [bind]; split; [discriminate|intros []]|]. cbn [bind].
    assert (W : wrap 0 (usize_bits c) (v - 8) = v - 8 + 2 ^ usize_bits c).
    { unfold wrap. rewrite Z.sub_0_r, Z.add_0_l.
      rewrite <- (Z_mod_plus_full _ 1), Z.mod_small by lia. lia. }
    rewrite W. unfold take.
    match goal with H : ok c ?r |- context [zlen ?r <? _] => destruct H as [_ H]; unfold addressable in H;
      destruct (Z.ltb_spec (zlen r) (v - 8 + 2 ^ usize_bits c)); [|lia] end.
    cbn [bind]. split; [intro H'; now injection H'|now intros ->].
Qed.
Lemma user_data_told : told c (parse_user_data_chunk c) (user_data_bad c).
Proof.
  start. unfold parse_user_data_chunk, user_data_bad. st c.
  change UDF_HAS_TEXT with (2 ^ 0). change UDF_HAS_COLOR with (2 ^ 1).
  change UDF_HAS_PROPERTIES with (2 ^ 2). rewrite !udf_bits by auto. unfold if_.
  destruct (Z.testbit v 0), (Z.testbit v 1), (Z.testbit v 2).
  all: st c.
  all: match goal with |- _ <-> area_end _ ?r ?e => rewrite <- (area_told r e) by assumption end; destruct (parse_properties_maps c _) as [[? ?]|?|?]; cbn [bind];
    split; intro H'; try discriminate H'; now injection H' as ->.
Qed.

Lemma just_err {A} (f : A -> chunk) (m : pres A) err : just f m = Err err <-> m = Err err.
Proof. unfold just. destruct m as [[? ?]|?|?]; cbn [bind]; split; intro H; try discriminate H; now injection H as ->. Qed.
Lemma data_told code d err : ok c d -> u16 code ->
  parse_chunk_data c (match chunk_type_from_repr code with Some t => inl t | None => inr code end) d = Err err <->
  data_bad c code d err.
Proof.
  intros Hd Hcode. unfold chunk_type_from_repr, data_bad.
  repeat (match goal with |- context [if ?z =? ?k then _ else _] =>
    destruct (Z.eqb_spec z k) as [->|?]; [|] end;
    [cbn [parse_chunk_data Z.eqb Pos.eqb orb]; rewrite ?just_err;
     first [ now apply old_palette_told | now apply layer_told | now apply cel_told | now apply cel_extra_told
           | now apply color_profile_told | now apply external_files_told | now apply mask_told | now apply tags_told
           | now apply palette_told | now apply user_data_told | now apply slice_told | now apply tileset_told
           | apply st_fine ] |]).
  repeat match goal with H : code <> ?k |- _ => replace (code =? k) with false by lia; clear H end.
  cbn [orb parse_chunk_data]. apply st_fine.
Qed.

(** ** Chunks, frames, files *)
Lemma sized_told {T} (k : bytes -> bytes -> out nom_err T) (B : bad) i err : ok c i ->
  (forall rest e, ok c e -> (k rest e = Err err <-> B e err)) ->
  (let* (input, size) := dword_size EInvalidFrameSize i in
   let* n := u32c c (size - 4) in
   let* (rest, input) := take n input in k rest input) = Err err <-> sized B i err.
Proof.
  intros Hi Hk. unfold dword_size, sized, dword. rewrite bind_bind. apply (st_uint c); [exact Hi|]. intros v r Hr Hv.
  change (fields [] ?K r err) with (K [] r err). cbv beta iota zeta. change (0 <= v < 2 ^ 32) in Hv.
  rewrite Z.ltb_antisym. destruct (Z.leb_spec 4 v); cbn [negb bind].
  2: { unfold failure. cbn [bind]. apply st_wrong. }
  rewrite u32c_ok by lia. cbn [bind]. destruct (take (v - 4) r) as [[rest e]|e|q] eqn:E; cbn [bind].
  - apply take_inv in E as [-> Hl]; [|lia]. rewrite (Hk rest e (ok_l _ _ _ Hr)). split.
    + intro H'. right. exists e, rest. auto.
    + intros [[H' _]|(e' & r' & E & Hl' & H')]; [rewrite zlen_app in H'; pose proof (zlen_nonneg rest); lia|].
      apply app_inv_length in E as [<- _]; [exact H'|unfold zlen in *; lia].
  - unfold take in E. destruct (Z.ltb_spec (zlen r) (v - 4)); [|discriminate]. injection E as <-. split.
    + intro H'. injection H' as <-. left. split; auto.
    + intros [[_ ->]|(e' & r' & -> & Hl' & H')]; [reflexivity|]. rewrite zlen_app in *. pose proof (zlen_nonneg r'). lia.
  - unfold take in E. destruct (zlen r <? v - 4); discriminate.
Qed.
Lemma chunk_told : told c (parse_chunk c) (chunk_bad c).
Proof.
  start. unfold parse_chunk, chunk_bad.
  apply (sized_told (fun rest input => let* (chunk_data, chunk_type) := parse_chunk_type input in
    let* chunk := parse_chunk_data c chunk_type chunk_data in Ok (rest, chunk))); [exact Hi|].
  intros rest e He. unfold parse_chunk_type, word. unfold pmap. rewrite ?bind_bind. apply (st_uint c); [exact He|]. intros v r Hr Hv.
  change (fields [] ?K r err) with (K [] r err). cbv beta iota zeta. cbn [bind].
  rewrite <- data_told by assumption.
  destruct (parse_chunk_data _ _ _); cbn [bind]; split; intro H'; try discriminate H'; now injection H' as ->.
Qed.
Lemma frame_told : told c (parse_rawframe c) (frame_bad c).
Proof.
  start. unfold parse_rawframe, frame_bad.
  apply (sized_told (fun rest input => let* (input, _) := tag FRAME_MAGIC_NUMBER input in
  let* (input, chunk_count) := word input in
  let* (input, duration) := word input in
  let* (input, _) := take 2 input in
  let* (input, chunk_count32) := parse_dword_as_usize c input in
  let chunk_count := if chunk_count32 =? 0 then chunk_count else chunk_count32 in
  let* (_, chunks) := parse_chunks c chunk_count input in
  Ok (rest, {| rf_duration := duration; rf_chunks := chunks |}))); [exact Hi|].
  intros rest e He. unfold tag. change (le 2 0xF1FA) with FRAME_MAGIC_NUMBER.
  destruct (list_eqb _ _) eqn:E; cbn [bind].
  - apply list_eqb_eq in E. change (length FRAME_MAGIC_NUMBER) with 2%nat in *.
    assert (Ee : e = FRAME_MAGIC_NUMBER ++ skipn 2 e) by (rewrite <- E at 1; symmetry; apply firstn_skipn).
    transitivity (fields [2; 2; 2; 4]%nat (fun v => match v with
      | [old; _; _; new] => several (chunk_l area_bad) (chunk_bad c) (if new =? 0 then old else new)
      | _ => fine end) (skipn 2 e) err).
    + assert (Hr : ok c (skipn 2 e)) by (rewrite Ee in He; now apply ok_r in He). clear E Ee. st c.
      apply (st_several c); [assumption| |intros a e' r' He' H'; apply parse_chunk_accepts; [exact Hc|exact He'|]|apply chunk_told|intros [? ?]; discriminate].
      * intros i' r' a Hi' Ha' H'. apply parse_chunk_sound in H' as (e' & -> & H'); [|assumption..].
        exists e'. split; [reflexivity|]. apply is_bytes_app_l in Hi'. revert H'. apply chunk_same; [|exact Hi'].
        intros. now apply (kept_first_mistake c).
      * revert H'. apply chunk_same; [|exact He']. intros. now apply (kept_first_mistake c).
    + split.
      * intro H'. right. exists (skipn 2 e). auto.
      * intros [[H' _]|(r & E' & H')]; [congruence|]. rewrite E' in Ee. apply app_inv_head in Ee. now rewrite E', <- Ee in *.
  - assert (E' : firstn 2 e <> FRAME_MAGIC_NUMBER) by (intro E'; apply (proj2 (list_eqb_eq _ _)) in E'; change (length FRAME_MAGIC_NUMBER) with 2%nat in E; congruence).
    split.
    + intro H'. injection H' as <-. left. auto.
    + intros [[_ ->]|(r & -> & _)]; [reflexivity|]. now destruct E'.
Qed.

Lemma many_loop_stop_app {A} (p : parser A) (L : A -> bytes -> Prop) :
  (forall e r a, is_bytes e -> L a e -> p (e ++ r) = Ok (r, a)) ->
  (forall a e, L a e -> e <> []) ->
  forall l e r fuel acc x, is_bytes e -> seq_l L l e -> (length e < fuel)%nat -> p r = Err (NError x) ->
  exists l', many_loop p fuel acc (e ++ r) = Ok (r, l').
Proof.
  intros Hp Hne. induction l as [|y l IH]; intros e r fuel acc x Hb H Hf Hr;
    (destruct fuel as [|fuel]; [lia|]); cbn [many_loop].
  - apply seq_l_nil_inv in H as ->. cbn [app]. rewrite Hr. eauto.
  - apply seq_l_cons_inv in H as (e1 & e2 & -> & H1 & H2). apply is_bytes_app in Hb as [Hb1 Hb2].
    rewrite <- app_assoc, (Hp _ _ _ Hb1 H1). rewrite !app_length in *.
    assert (length e1 <> 0)%nat by (intro Hz; apply (Hne _ _ H1); now destruct e1).
    replace (length e2 + length r =? length e1 + (length e2 + length r))%nat with false by lia.
    apply (IH e2 r fuel _ x); (assumption || lia).
Qed.
Lemma frame_to f e : is_bytes e -> frame_l (kept_error c) f e -> frame_l area_bad f e.
Proof. intros He H. revert H. apply frame_same; [|exact He]. intros. now apply (kept_first_mistake c). Qed.
Lemma frame_of f e : is_bytes e -> frame_l area_bad f e -> frame_l (kept_error c) f e.
Proof. intros He H. revert H. apply frame_same; [|exact He]. intros. now apply (kept_first_mistake c). Qed.
Lemma frame_some f e : frame_l (kept_error c) f e -> e <> [].
Proof. intros Hf ->. apply frame_l_zlen in Hf. cbn in Hf. lia. Qed.

Lemma file_told i err : ok c i -> parse_raw_file c i = Err err <-> file_bad c i err.
Proof.
  intros Hi. unfold parse_raw_file, file_bad. split.
  - destruct (parse_header i) as [[i2 h]|e|q] eqn:E; cbn [bind]; [| |discriminate].
    2: { intro H. injection H as ->. apply header_err in E as (x & -> & E). left. eauto. }
    apply parse_header_sound in E as (e1 & -> & H1); [|apply Hi]. apply ok_r in Hi. intro H. right.
    unfold parse_frames, complete, all_consuming, many1 in H.
    destruct (parse_rawframe c i2) as [[i3 f]|e|q] eqn:E; cbn [bind] in H; [| |discriminate].
    2: { injection H as ->. apply frame_told in E; [|exact Hi]. exists h, [], e1, [], i2, err.
         split; [exact H1|]. split; [apply seq_l_nil|]. split; [reflexivity|]. split; [exact E|]. split; [congruence|reflexivity]. }
    apply parse_rawframe_sound in E as (ef & -> & Hf); [|exact Hc|apply Hi..].
    assert (Bf := proj1 (ok_l _ _ _ Hi)). apply ok_r in Hi. destruct Hi as [Hb Ha].
    assert (K : forall fs e3 r x, i3 = e3 ++ r -> seq_l (frame_l (kept_error c)) fs e3 -> parse_rawframe c r = Err x ->
      r <> [] -> exists h fs e1' e2 r' x', header_l h e1' /\ seq_l (frame_l area_bad) fs e2 /\ e1 ++ ef ++ i3 = e1' ++ e2 ++ r' /\
        frame_bad c r' x' /\ (fs <> [] -> r' <> []) /\
        match x with NError _ => NError (ENom r KEof) | _ => x end = match fs, x' with _ :: _, NError _ => NError (ENom r' KEof) | _, _ => x' end).
    { intros fs e3 r x -> H2 H3 Hr. exists h, (f :: fs), e1, (ef ++ e3), r, x. split; [exact H1|].
      assert (B3 := is_bytes_app_l _ _ Hb).
      split; [apply seq_l_cons; [now apply frame_to|apply (seq_same _ _ frame_to); assumption]|].
      split; [now rewrite <- app_assoc|]. split; [|split; [auto|now destruct x]].
      apply frame_told; [split; [now apply is_bytes_app_r in Hb|now apply addressable_app_r in Ha]|exact H3]. }
    destruct (many_loop _ _ _ i3) as [[r l]|[x|x]|q] eqn:El; cbn [bind] in H; [| | |discriminate].
    + destruct r as [|b r]; [discriminate|]. cbn [bind] in H. injection H as <-.
      eapply many_loop_stops in El as (fs & e3 & E3 & H2 & y & H3); [|apply parse_rawframe_sound, Hc|assumption..].
      apply (K fs e3 (b :: r) (NError y)); (assumption || discriminate).
    + now apply many_loop_frames in El.
    + injection H as <-.
      eapply many_loop_err in El as (fs & e3 & r & E3 & H2 & H3); [|apply parse_rawframe_sound, Hc|assumption..].
      apply (K fs e3 r (NFailure x)); [assumption..|]. intros ->. discriminate H3.
  - intros [(x & H & ->)|(h & fs & e1 & e2 & r & x & H1 & H2 & -> & H3 & H4 & ->)].
    { assert (E : parse_header i = Err (NError x)) by (apply header_err; eauto). now rewrite E. }
    rewrite (parse_header_accepts _ _ _ H1). cbn [bind]. apply ok_r in Hi.
    apply frame_told in H3; [|now apply ok_r in Hi]. unfold parse_frames, complete, all_consuming, many1.
    assert (B2 := proj1 (ok_l _ _ _ Hi)).
    apply (seq_same _ _ frame_of) in H2; [|exact B2].
    destruct fs as [|f fs].
    { apply seq_l_nil_inv in H2 as ->. cbn [app]. rewrite H3. now destruct x. }
    apply seq_l_cons_inv in H2 as (ef & e3 & -> & Hf & H2). apply is_bytes_app in B2 as [Bf B3]. rewrite <- app_assoc.
    rewrite (parse_rawframe_accepts c ef (e3 ++ r) f) by assumption.
    assert (Hl : (length e3 < S (length (e3 ++ r)))%nat) by (rewrite app_length; lia).
    assert (Hp : forall e r a, is_bytes e -> frame_l (kept_error c) a e -> parse_rawframe c (e ++ r) = Ok (r, a)).
    { intros. now apply parse_rawframe_accepts. }
    destruct x as [x|x].
    + destruct (many_loop_stop_app _ _ Hp frame_some fs e3 r _ [f] x B3 H2 Hl H3) as (l' & E). rewrite E. cbn [bind].
      destruct r; [now destruct H4|]. reflexivity.
    + rewrite (many_loop_err_app _ _ Hp frame_some fs e3 r _ [f] x B3 H2 Hl H3). reflexivity.
Qed.
End Chunks.

Lemma raw_first_mistake c i err : cfg_ok c -> is_bytes i -> addressable c i ->
  parse_raw_file c i = Err err <-> file_bad c i err.
Proof. intros Hc Hi Ha. now apply file_told. Qed.
Lemma file_first_mistake c i err : cfg_ok c -> is_bytes i -> addressable c i ->
  parse_file c i = Err err <-> first_mistake c i err.
Proof.
  intros Hc Hi Ha. unfold first_mistake. rewrite <- (raw_first_mistake c i err Hc Hi Ha). destruct err as [x|x].
  - split.
    + intro H. left. now apply file_error_iff.
    + intros [H|(raw & _ & [(e & _ & H)|(pal & b & y & a & _ & _ & _ & _ & H)])]; try discriminate H.
      unfold parse_file. now rewrite H.
  - rewrite file_failure_iff, failure_iff by assumption.
    split; (intros [H|(raw & Hr & H)]; [now left|right]); exists raw; (split; [revert Hr; apply raw_same; [|exact Hi]; intros; now apply (kept_first_mistake c)|]).
    + destruct H as [(e & H & ->)|(pal & b & y & a & H1 & H2 & H3 & H4 & ->)]; [left; eauto|right]. exists pal, b, y, a. auto.
    + destruct H as [(e & H & H')|(pal & b & y & a & H1 & H2 & H3 & H4 & H')]; injection H' as ->; [left; eauto|right]. exists pal, b, y, a. auto.
Qed.
Lemma load_first_mistake c i e : cfg_ok c -> is_bytes i -> addressable c i ->
  load c i = Err e <->
  (exists x, e = LParse x /\ first_mistake c i x) \/
   exists raw f before k x after, raw_file_l area_bad raw i /\ complete_file raw f /\
     file_cels (f_frames f) = before ++ (k, x) :: after /\ cel_wrong (f_frames f) k x e /\
     Forall (fun '(k, x) => forall e, ~ cel_wrong (f_frames f) k x e) before.
Proof.
  intros Hc Hi Ha. rewrite load_refused by assumption. split.
  - intros [(x & -> & H)|(raw & f & b & k & x & a & H1 & H)].
    + left. exists x. split; [reflexivity|]. now apply file_first_mistake.
    + right. exists raw, f, b, k, x, a. split; [|exact H]. revert H1. apply raw_same; [|exact Hi]. intros; now apply (kept_first_mistake c).
  - intros [(x & -> & H)|(raw & f & b & k & x & a & H1 & H)].
    + left. exists x. split; [reflexivity|]. now apply file_first_mistake.
    + right. exists raw, f, b, k, x, a. split; [|exact H]. revert H1. apply raw_same; [|exact Hi]. intros; now apply (kept_first_mistake c).
Qed.
Lemma first_unique c i err err' : cfg_ok c -> is_bytes i -> addressable c i ->
  first_mistake c i err -> first_mistake c i err' -> err = err'.
Proof. intros Hc Hi Ha H H'. apply file_first_mistake in H; [|assumption..]. apply file_first_mistake in H'; [|assumption..]. congruence. Qed.
