(** The statements of Properties/Binary.v in the form given there. *)
From Verif.Model Require Import RawFile.
From Verif.Spec Require Import Slices.
From Verif.Proofs Require Import Utf8Facts ParseLib ChunkFacts ChunkFacts2 UserDataFacts RawFacts Safety
  SlicesFacts BinaryProps BinaryProps2.
From Verif.Tests Require Import Configs.
Local Ltac Zify.zify_post_hook ::= Z.div_mod_to_equations.

Lemma scalars_read :
  reads byte (uint_l 1) /\ reads word (uint_l 2) /\ reads dword (uint_l 4) /\
  reads short (sint_l 2) /\ reads long (sint_l 4) /\
  (forall n, reads (le_uint n) (uint_l n)) /\
  (forall n, (0 < n)%nat -> reads (le_int n) (sint_l n)).
Proof.
  assert (U : forall n, reads (le_uint n) (uint_l n)).
  { intro n. apply reads_intro; [apply le_uint_sound|apply le_uint_accepts]. }
  assert (S : forall n, (0 < n)%nat -> reads (le_int n) (sint_l n)).
  { intros n Hn. apply reads_intro; [now apply le_int_sound|now apply le_int_accepts]. }
  repeat split; try apply U; try (apply S; lia); try assumption.
  all: try apply U; try apply S; try lia; try assumption.
Qed.

Lemma strings_read : reads parse_string string_l.
Proof. apply reads_intro; [apply parse_string_sound|apply parse_string_accepts]. Qed.
Lemma header_reads : reads parse_header header_l.
Proof. apply reads_intro; [apply parse_header_sound|apply parse_header_accepts]. Qed.
Lemma layer_reads : reads parse_layer_chunk layer_l.
Proof. apply reads_intro; [apply parse_layer_sound|apply parse_layer_accepts]. Qed.
Lemma tags_reads : reads parse_tags_chunk tags_l.
Proof. apply reads_intro; [apply parse_tags_sound|apply parse_tags_accepts]. Qed.
Lemma palette_reads c : cfg_ok c -> reads (parse_palette_chunk c) palette_l.
Proof. intro Hc. apply reads_intro; [apply parse_palette_chunk_sound|now apply parse_palette_chunk_accepts]. Qed.
Lemma old_palette_reads : reads parse_old_palette_chunk old_palette_l.
Proof. apply reads_intro; [apply parse_old_palette_sound|apply parse_old_palette_accepts]. Qed.
Lemma slice_reads c : cfg_ok c -> reads (parse_slice_chunk c) slice_l.
Proof. intro Hc. apply reads_intro; [apply parse_slice_sound|now apply parse_slice_accepts]. Qed.
Lemma tileset_reads : reads parse_tileset_chunk tileset_l.
Proof. apply reads_intro; [apply parse_tileset_sound|apply parse_tileset_accepts]. Qed.
Lemma external_files_reads c : cfg_ok c -> reads (parse_external_files_chunk c) external_files_l.
Proof. intro Hc. apply reads_intro; [apply parse_external_files_sound|now apply parse_external_files_accepts]. Qed.
Lemma color_profile_reads : reads parse_color_profile color_profile_l.
Proof. apply reads_intro; [apply parse_color_profile_sound|apply parse_color_profile_accepts]. Qed.

Lemma chunk_size_field c i r x : cfg_ok c -> is_bytes i -> addressable c i ->
  parse_chunk c i = Ok (r, x) -> exists e, i = e ++ r /\ u32 (zlen e) /\ firstn 4 i = le 4 (zlen e).
Proof.
  intros Hc Hi Ha H. apply parse_chunk_sound in H as (e & -> & d & H1 & _ & E); [|assumption..].
  exists e. split; [reflexivity|]. split; [exact H1|]. rewrite E. rewrite <- E at 2. reflexivity.
Qed.

Lemma unknown_chunk c : cfg_ok c -> forall t d r,
  is_bytes (d ++ r) -> addressable c (encode_chunk t d ++ r) -> u32 (zlen d + 6) ->
  u16 t -> ~ In t known_codes ->
  parse_chunk c (encode_chunk t d ++ r) = Ok (r, ChUnsupported t).
Proof.
  intros Hc t d r H1 H2 H3 H4 H5. apply (chunk_iff c Hc (ChUnsupported t)); [assumption..|].
  split; assumption.
Qed.

Lemma trailing_ignored c : cfg_ok c -> forall x d t r,
  is_bytes (d ++ t ++ r) -> addressable c (encode_chunk (chunk_code x) (d ++ t) ++ r) ->
  u32 (zlen (d ++ t) + 6) -> takes_rest x = false ->
  parse_chunk c (encode_chunk (chunk_code x) d) = Ok ([], x) ->
  parse_chunk c (encode_chunk (chunk_code x) (d ++ t) ++ r) = Ok (r, x).
Proof.
  intros Hc x d t r H1 H2 H3 H4 H5.
  assert (Hd : u32 (zlen d + 6)).
  { unfold u32, uint in *. rewrite zlen_app in H3. pose proof (zlen_nonneg d). pose proof (zlen_nonneg t). lia. }
  rewrite <- (app_nil_r (encode_chunk _ d)) in H5. apply chunk_iff in H5; [|assumption|..|assumption].
  - apply chunk_iff; [assumption|now rewrite <- app_assoc|assumption|assumption|].
    now apply payload_more.
  - rewrite app_nil_r. now apply is_bytes_app_l in H1.
  - unfold addressable, encode_chunk in *. rewrite !zlen_app in H2. rewrite !zlen_app.
    rewrite !zlen_le in *. pose proof (zlen_nonneg t). pose proof (zlen_nonneg r). cbn [length zlen]. 
    rewrite zlen_nil. lia.
Qed.

Lemma frame_iff c : cfg_ok c -> forall i r f, is_bytes i -> addressable c i ->
  (parse_rawframe c i = Ok (r, f) <-> exists e, i = e ++ r /\ frame_l (kept_error c) f e).
Proof.
  intros Hc i r f Hi Ha. split; [now apply parse_rawframe_sound|].
  intros (e & -> & H). apply parse_rawframe_accepts; [assumption|now apply is_bytes_app_l in Hi|assumption].
Qed.

Lemma frame_count c : cfg_ok c -> forall i r f, is_bytes i -> addressable c i ->
  parse_rawframe c i = Ok (r, f) ->
  exists old new, u16 old /\ u32 new /\ field i 6 2 = le 2 old /\ field i 12 4 = le 4 new /\
    zlen (rf_chunks f) = (if new =? 0 then old else new).
Proof.
  intros Hc i r f Hi Ha H. apply parse_rawframe_sound in H as (e & -> & H); [|assumption..].
  destruct H as (old & new & g1 & body & g2 & H1 & H2 & H3 & H4 & H5 & H6 & H7 & E).
  exists old, new. repeat (split; [assumption|]).
  destruct g1 as [|x [|y [|? ?]]]; try (unfold zlen in H4; cbn in H4; lia).
  rewrite E. repeat split. exact H6.
Qed.

Lemma seq_in {A} (L : A -> bytes -> Prop) l e x : seq_l L l e -> In x l -> exists e', L x e'.
Proof.
  intros (parts & H & _). induction H as [|a b l parts Hab H IH]; intros Hx; [destruct Hx|].
  destruct Hx as [->|Hx]; eauto.
Qed.

Lemma tag_ranges i r t x : is_bytes i -> parse_tags_chunk i = Ok (r, t) ->
  In x (tc_tags t) -> 0 <= tg_from x <= tg_to x /\ tg_to x < 65536.
Proof.
  intros Hi H Hx. apply parse_tags_sound in H as (e & _ & g & b & _ & _ & H & _); [|exact Hi].
  destruct (seq_in _ _ _ _ H Hx) as (e' & d & g' & l & n & H1 & H2 & H3 & _).
  unfold u16, uint in *. lia.
Qed.

Lemma reversed_tag from to rest : u16 from -> u16 to -> to < from ->
  is_bytes rest -> exists err, parse_tag (le 2 from ++ le 2 to ++ rest) = Err err.
Proof.
  intros H1 H2 Hlt Hr.
  assert (Hi : is_bytes (le 2 from ++ le 2 to ++ rest)).
  { repeat (apply is_bytes_app; split); try apply is_bytes_le. exact Hr. }
  destruct (parse_tag _) as [[r t]|err|q] eqn:E; [|eauto|destruct (parse_tag_safe _ _ E)].
  exfalso. apply parse_tag_sound in E as (e & E & d & g & l & n & S1 & S2 & S3 & H); [|exact Hi].
  decompose [and] H. subst e. clear H. rewrite <- !app_assoc in E.
  assert (D := accepts_determined _ _ (le_uint_accepts 2)).
  assert (U : forall v, u16 v -> uint_l 2 v (le 2 v)) by (intros v Hv; split; [exact Hv|reflexivity]).
  destruct (D _ _ _ _ _ _ (U _ H1) (U _ S1) E) as (E1 & _ & E2).
  destruct (D _ _ _ _ _ _ (U _ H2) (U _ S2) E2) as (E3 & _ & _). lia.
Qed.

Definition entry1 := {| pe_color := {| red := 0; green := 0; blue := 0; alpha := 0 |}; pe_name := None |}.

Lemma bytes_by_compute l : forallb (fun b => (0 <=? b) && (b <? 256)) l = true -> is_bytes l.
Proof.
  intros H. apply Forall_forall. intros x Hx. rewrite forallb_forall in H. specialize (H x Hx).
  unfold is_byte. lia.
Qed.

Lemma palette_refuted :
  (exists p e, is_bytes e /\ spec_palette_l 2 p e /\
     forall c, cfg_ok c -> exists err, parse_palette_chunk c e = Err err) /\
  (exists p e, is_bytes e /\ spec_palette_l 0 p e /\
     forall c, cfg_ok c -> exists r p', parse_palette_chunk c e = Ok (r, p') /\ pc_entries p' <> pc_entries p).
Proof.
  assert (S : forall n, 0 <= n < 3 -> spec_palette_l n {| pc_first := 1; pc_last := 1; pc_entries := [entry1] |}
    (le 4 n ++ [1; 0; 0; 0; 1; 0; 0; 0] ++ repeat 0 8 ++ repeat 0 6)).
  { intros n Hn. exists (repeat 0 8), (repeat 0 6). cbn [pc_first pc_last pc_entries].
    split; [unfold u32, uint; lia|]. repeat split; try lia; try reflexivity.
    exists [repeat 0 6]. split; [|reflexivity]. constructor; [|constructor].
    exists 0, (repeat 0 4), []. split; [cbv; intuition congruence|].
    split; [split; [apply bytes_by_compute; reflexivity|reflexivity]|]. split; [reflexivity|]. split; [|reflexivity].
    split; [intros []|discriminate]. }
  split.
  - eexists _, _. split; [|split; [apply S; lia|]]; [apply bytes_by_compute; reflexivity|].
    intros [d u] [Hu|Hu]; cbn in Hu; subst u; eexists; vm_compute; reflexivity.
  - eexists _, _. split; [|split; [apply (S 0); lia|]]; [apply bytes_by_compute; reflexivity|].
    intros [d u] [Hu|Hu]; cbn in Hu; subst u; eexists _, _; (split; [vm_compute; reflexivity|discriminate]).
Qed.

Lemma user_data_iff c : cfg_ok c -> forall i r u, is_bytes i -> addressable c i ->
  (parse_user_data_chunk c i = Ok (r, u) <-> exists e, i = e ++ r /\ user_data_l (kept_error c) u e).
Proof.
  intros Hc i r u Hi Ha. split; [now apply parse_user_data_sound|].
  intros (e & -> & H). apply parse_user_data_accepts; assumption.
Qed.

Lemma maps_round_trip c n area ms : cfg_ok c -> is_bytes area ->
  u32 n -> u32 (zlen area + 8) -> zlen ms = n -> maps_l ms area ->
  forall r, parse_properties_maps c (le 4 (zlen area + 8) ++ le 4 n ++ area ++ r) = Ok (r, inl ([], ms)).
Proof.
  intros Hc Hb Hn Hz Hl Hm r. 
  assert (H := parse_properties_maps_accepts c Hc). 
  replace (le 4 (zlen area + 8) ++ le 4 n ++ area ++ r) with ((le 4 (zlen area + 8) ++ le 4 n ++ area) ++ r)
    by now rewrite <- !app_assoc.
  apply H.
  exists n, area. repeat (split; [assumption|]). split; [|reflexivity].
  exists area. rewrite app_nil_r. auto.
Qed.

Lemma maps_unambiguous ms ms' e r e' r' : zlen ms = zlen ms' -> is_bytes (e ++ r) ->
  maps_l ms e -> maps_l ms' e' -> e ++ r = e' ++ r' -> ms = ms' /\ e = e' /\ r = r'.
Proof.
  intros Hz Hb H1 H2 E. assert (Hc : cfg_ok dbg64) by (right; reflexivity).
  assert (C1 := proj2 (count_maps_iff dbg64 (zlen ms) (e ++ r) r ms Hc Hb (zlen_nonneg _))
    (ex_intro _ e (conj eq_refl (conj eq_refl H1)))).
  assert (C2 := proj2 (count_maps_iff dbg64 (zlen ms) (e ++ r) r' ms' Hc Hb (zlen_nonneg _))
    (ex_intro _ e' (conj E (conj (eq_sym Hz) H2)))).
  rewrite C1 in C2. injection C2 as -> ->. repeat split. now apply app_inv_tail in E.
Qed.

Lemma table_drop {A} (rows : list A) u k w : 0 <= w -> w <> zlen rows ->
  table (rows ++ [k]) u w = table rows u w.
Proof.
  intros H0 H. unfold table, zlen in *. destruct (Z.ltb_spec w (Z.of_nat (length rows))).
  - rewrite app_nth1 by lia. reflexivity.
  - rewrite nth_overflow, nth_overflow; [reflexivity|lia|rewrite app_length; cbn; lia].
Qed.

Lemma unknown_codes :
  (forall w, 0 <= w -> w <> 19 -> blend_mode_from w =
     table [BNormal; BMultiply; BScreen; BOverlay; BDarken; BLighten; BColorDodge; BColorBurn;
            BHardLight; BSoftLight; BDifference; BExclusion; BHue; BSaturation; BColor;
            BLuminosity; BAddition; BSubtract; BDivide] BUnknown w) /\
  (forall w, 0 <= w -> w <> 4 -> cel_type_from w =
     table [CTRawImageData; CTLinkedCel; CTCompressedImage; CTCompressedTilemap] CTUnknown w) /\
  (forall w, 0 <= w -> w <> 3 -> color_profile_type_from w =
     table [CPTNone; CPTSrgb; CPTEmbeddedICC] CPTUnknown w) /\
  (forall w, 0 <= w -> w <> 3 -> external_file_type_from w =
     table [EFPalette; EFTileset; EFExtensionName] EFUnknown w) /\
  (forall w, 0 <= w -> w <> 4 -> animation_direction_from w =
     table [DForward; DReverse; DPingPong; DPingPongReverse] DirUnknown w) /\
  (forall w, 0 <= w -> layer_type_from w = table [LNormal; LGroup; LTilemap] LUnknown w) /\
  (forall w, 0 <= w -> color_depth_from w = color_depth_code w).
Proof.
  split. { intros w H0 H. rewrite blend_mode_from_code by exact H0.
    erewrite <- table_drop; [|exact H0|exact H]. reflexivity. }
  split. { intros w H0 H. rewrite cel_type_from_cases by exact H0.
    erewrite <- (table_drop [_; _; _; _]); [|exact H0|exact H]. reflexivity. }
  split. { intros w H0 H. rewrite profile_from_cases by exact H0.
    erewrite <- (table_drop [_; _; _]); [|exact H0|exact H]. reflexivity. }
  split. { intros w H0 H. rewrite external_file_from_code by exact H0.
    erewrite <- (table_drop [_; _; _]); [|exact H0|exact H]. reflexivity. }
  split. { intros w H0 H. rewrite direction_from_code by exact H0.
    erewrite <- (table_drop [_; _; _; _]); [|exact H0|exact H]. reflexivity. }
  split. { intros w H0. now apply layer_type_from_code. }
  intros w H0. now apply color_depth_from_code.
Qed.

Lemma unknown_codes_refuted :
  parse_blend_mode (le 2 19) = Ok ([], BUnknown 0) /\ cel_type_from 4 = CTUnknown 0 /\
  color_profile_type_from 3 = CPTUnknown 0 /\ external_file_type_from 3 = EFUnknown 0 /\
  animation_direction_from 4 = DirUnknown 0.
Proof. repeat split. Qed.

Lemma layer_flags f :
  contains (from_bits_truncate LF_ALL f) LF_VISIBLE = Z.testbit f 0 /\
  contains (from_bits_truncate LF_ALL f) LF_EDITABLE = Z.testbit f 1 /\
  contains (from_bits_truncate LF_ALL f) LF_LOCK_MOVEMENT = Z.testbit f 2 /\
  contains (from_bits_truncate LF_ALL f) LF_BACKGROUND = Z.testbit f 3.
Proof.
  repeat split; [apply (contains_testbit LF_ALL f 0)|apply (contains_testbit LF_ALL f 1)|
    apply (contains_testbit LF_ALL f 2)|apply (contains_testbit LF_ALL f 3)]; (lia || reflexivity).
Qed.

Lemma layer_flags_actual f :
  contains (from_bits_truncate LF_ALL f) LF_PREFER_LINKED_CELS =
    Z.testbit f 1 && Z.testbit f 2 && Z.testbit f 4 /\
  contains (from_bits_truncate LF_ALL f) LF_COLLAPSED =
    Z.testbit f 1 && Z.testbit f 4 && Z.testbit f 5 /\
  contains (from_bits_truncate LF_ALL f) LF_REFERENCE =
    Z.testbit f 2 && Z.testbit f 5 && Z.testbit f 6.
Proof.
  assert (T : forall k, 0 <= k < 7 -> Z.testbit f k = Z.testbit (f mod 2 ^ 7) k).
  { intros k Hk. now rewrite Z.mod_pow2_bits_low by lia. }
  rewrite (truncate_mod LF_ALL 7 f) by (lia || reflexivity).
  rewrite !T by lia. assert (R : 0 <= f mod 2 ^ 7 < 128) by (change (2 ^ 7) with 128; lia).
  generalize dependent (f mod 2 ^ 7). intros g _ R.
  assert (In g (map Z.of_nat (seq 0 128))) by now apply small_cases.
  assert (A : forallb (fun g =>
    Bool.eqb (contains g LF_PREFER_LINKED_CELS) (Z.testbit g 1 && Z.testbit g 2 && Z.testbit g 4) &&
    Bool.eqb (contains g LF_COLLAPSED) (Z.testbit g 1 && Z.testbit g 4 && Z.testbit g 5) &&
    Bool.eqb (contains g LF_REFERENCE) (Z.testbit g 2 && Z.testbit g 5 && Z.testbit g 6))
    (map Z.of_nat (seq 0 128)) = true) by (vm_compute; reflexivity).
  rewrite forallb_forall in A. specialize (A g H).
  apply andb_true_iff in A as [A A3]. apply andb_true_iff in A as [A1 A2].
  repeat split; now apply eqb_prop.
Qed.

Lemma layer_flags_refuted :
  contains (from_bits_truncate LF_ALL 16) LF_PREFER_LINKED_CELS <> Z.testbit 16 4 /\
  contains (from_bits_truncate LF_ALL 32) LF_COLLAPSED <> Z.testbit 32 5 /\
  contains (from_bits_truncate LF_ALL 64) LF_REFERENCE <> Z.testbit 64 6.
Proof. vm_compute. repeat split; discriminate. Qed.

Lemma raw_slices_infix c i f s : cfg_ok c -> is_bytes i -> addressable c i ->
  parse_raw_file c i = Ok f -> In s (raw_slices f) -> infix s i.
Proof.
  intros Hc Hi Ha H Hs. apply parse_raw_file_iff in H; [|assumption..].
  apply raw_inside in H. unfold inside in H. rewrite Forall_forall in H. now apply H.
Qed.

Lemma nesting_unbounded c n : cfg_ok c -> exists v e,
  length e = (6 * n + 6)%nat /\ vector_l v e /\
  (forall r, parse_vector c n (e ++ r) = Panic PFuel) /\
  (forall r, parse_vector c (S n) (e ++ r) = Ok (r, v)).
Proof.
  intro Hc. exists (nested n), (nested_bytes n). split; [apply nested_length|]. split; [apply nested_l|].
  split; intro r; [now apply nested_fuel|now apply nested_enough].
Qed.

Lemma nesting_bounded c i q : is_bytes i -> parse_value c (S (length i)) i <> Panic q.
Proof. intro Hi. apply (user_data_below c (S (length i))); [exact Hi|lia]. Qed.
