(** Panics of the raw parser. *)
From Verif.Model Require Import RawFile.
From Verif.Proofs Require Import ParseLib ChunkFacts ChunkFacts2 UserDataFacts RawFacts.
Local Ltac Zify.zify_post_hook ::= Z.div_mod_to_equations.

Lemma parse_packet_safe : nopanic parse_packet.
Proof. unfold parse_packet. safe_tac. Qed.
#[export] Hint Resolve parse_packet_safe : psafe.
Lemma parse_old_palette_safe : nopanic parse_old_palette_chunk.
Proof. unfold parse_old_palette_chunk. safe_tac. Qed.
Lemma parse_palette_entry_safe : nopanic parse_palette_entry.
Proof. unfold parse_palette_entry. safe_tac. Qed.
#[export] Hint Resolve parse_palette_entry_safe : psafe.
Lemma parse_palette_safe c : nopanic (parse_palette_chunk c).
Proof. unfold parse_palette_chunk. safe_tac. Qed.
Lemma parse_layer_safe : nopanic parse_layer_chunk.
Proof. unfold parse_layer_chunk. safe_tac. Qed.
Lemma parse_cel_content_safe ct i q : parse_cel_content ct i <> Panic q.
Proof. destruct ct; cbn [parse_cel_content]; repeat safe_step. Qed.
Lemma parse_cel_safe : nopanic parse_cel_chunk.
Proof.
  unfold parse_cel_chunk. intros i q. cbv zeta. do 7 safe_step.
  match goal with |- bind ?m _ <> _ => destruct m as [?|?|?] eqn:Eq; cbn [bind]; try discriminate end.
  destruct (parse_cel_content_safe _ _ _ Eq).
Qed.
Lemma parse_cel_extra_safe : nopanic parse_cel_extra_chunk.
Proof. unfold parse_cel_extra_chunk. safe_tac. Qed.
Lemma parse_color_profile_safe : nopanic parse_color_profile.
Proof.
  unfold parse_color_profile. intros i q. cbv zeta. do 4 safe_step.
  destruct (color_profile_type_from z); try (repeat safe_step).
  all: cbn [bind]; discriminate.
Qed.
Lemma parse_external_file_safe : nopanic parse_external_file.
Proof. unfold parse_external_file. safe_tac. Qed.
#[export] Hint Resolve parse_external_file_safe : psafe.
Lemma parse_external_files_safe c : nopanic (parse_external_files_chunk c).
Proof. unfold parse_external_files_chunk. safe_tac. Qed.
Lemma parse_mask_safe : nopanic parse_mask_chunk.
Proof. unfold parse_mask_chunk. safe_tac. Qed.
Lemma parse_nine_patch_safe : nopanic parse_nine_patch.
Proof. unfold parse_nine_patch. safe_tac. Qed.
Lemma parse_pivot_safe : nopanic parse_pivot.
Proof. unfold parse_pivot. safe_tac. Qed.
#[export] Hint Resolve parse_nine_patch_safe parse_pivot_safe : psafe.
Lemma parse_slice_key_safe f : nopanic (parse_slice_key f).
Proof. unfold parse_slice_key. safe_tac. Qed.
#[export] Hint Resolve parse_slice_key_safe : psafe.
Lemma parse_slice_safe c : nopanic (parse_slice_chunk c).
Proof. unfold parse_slice_chunk. safe_tac. Qed.
Lemma parse_tag_safe : nopanic parse_tag.
Proof. unfold parse_tag. safe_tac. Qed.
#[export] Hint Resolve parse_tag_safe : psafe.
Lemma parse_tags_safe : nopanic parse_tags_chunk.
Proof. unfold parse_tags_chunk. safe_tac. Qed.
Lemma parse_tileset_external_safe : nopanic parse_tileset_external_file.
Proof. unfold parse_tileset_external_file. safe_tac. Qed.
Lemma parse_tiles_safe : nopanic parse_tiles.
Proof. apply flat_map_safe; auto with psafe. Qed.
#[export] Hint Resolve parse_tileset_external_safe parse_tiles_safe : psafe.
Lemma parse_tileset_safe : nopanic parse_tileset_chunk.
Proof. unfold parse_tileset_chunk. safe_tac. Qed.
#[export] Hint Resolve parse_old_palette_safe parse_palette_safe parse_layer_safe parse_cel_safe
  parse_cel_extra_safe parse_color_profile_safe parse_external_files_safe parse_mask_safe
  parse_slice_safe parse_tags_safe parse_tileset_safe : psafe.

(** ** Header: the assertion never fails *)
Lemma le_uint_len n i r v : le_uint n i = Ok (r, v) -> (length i = n + length r)%nat.
Proof.
  unfold le_uint. destruct (Nat.ltb_spec (length i) n); [discriminate|]. intros [= <- _].
  rewrite skipn_length. lia.
Qed.
Lemma le_int_len n i r v : le_int n i = Ok (r, v) -> (length i = n + length r)%nat.
Proof. unfold le_int. intro H. pbind H. injection H as <- _. now apply le_uint_len in E. Qed.
Lemma take_len n i r v : take n i = Ok (r, v) -> (length i = Z.to_nat n + length r)%nat.
Proof.
  unfold take, zlen. destruct (Z.ltb_spec (Z.of_nat (length i)) n); [discriminate|]. intros [= <- _].
  rewrite skipn_length. lia.
Qed.
Lemma tag_len t i r v : Nom.tag t i = Ok (r, v) -> (length i = length t + length r)%nat.
Proof. intro H. apply tag_inv in H as [-> _]. apply app_length. Qed.
Lemma parse_color_depth_safe : nopanic parse_color_depth.
Proof. unfold parse_color_depth. safe_tac. Qed.
#[export] Hint Resolve parse_color_depth_safe : psafe.
Lemma parse_color_depth_len i r v : parse_color_depth i = Ok (r, v) -> (length i = 2 + length r)%nat.
Proof. unfold parse_color_depth. intro H. pbind H. injection H as <- _. now apply le_uint_len in E. Qed.

Lemma parse_header_safe : nopanic parse_header.
Proof.
  intros i q. unfold parse_header.
  destruct (take 128 i) as [[rest hd]|?|?] eqn:E0; cbn [bind]; try discriminate;
    [|destruct (take_safe _ _ _ E0)].
  assert (Hl : length hd = 128%nat).
  { apply take_inv in E0 as [_ Hz]; [unfold zlen in Hz|]; lia. }
  clear E0.
  repeat (match goal with |- bind _ _ <> _ => safe_step end;
    match goal with
    | H : byte _ = Ok _ |- _ => apply le_uint_len in H
    | H : word _ = Ok _ |- _ => apply le_uint_len in H
    | H : dword _ = Ok _ |- _ => apply le_uint_len in H
    | H : short _ = Ok _ |- _ => apply le_int_len in H
    | H : take _ _ = Ok _ |- _ => apply take_len in H
    | H : Nom.tag _ _ = Ok _ |- _ => apply tag_len in H
    | H : parse_color_depth _ = Ok _ |- _ => apply parse_color_depth_len in H
    end).
  match goal with |- (if negb (?n =? 0)%nat then _ else _) <> _ =>
    destruct (Nat.eqb_spec n 0) as [|Hn]; cbn [negb]; [discriminate|] end.
  exfalso. apply Hn. cbn [length HEADER_MAGIC_NUMBER] in *. lia.
Qed.

(** ** Panics of the user data parser *)

(** The only panic is the overflow check of a debug build. *)
Definition only_overflow (c : cfg) {A} (p : parser A) : Prop :=
  forall i q, is_bytes i -> p i = Panic q -> debug c = true /\ q = POverflow.

Lemma nopanic_overflow c {A} (p : parser A) : nopanic p -> only_overflow c p.
Proof. intros H i q _ E. destruct (H _ _ E). Qed.
Lemma checked_panic {E} c lo w z q : @checked E c lo w z = Panic q -> debug c = true /\ q = POverflow.
Proof. unfold checked. destruct (_ && _); [discriminate|]. destruct (debug c); [|discriminate]. now intros [= <-]. Qed.
Lemma u32c_panic {E} c z q : @u32c E c z = Panic q -> debug c = true /\ q = POverflow.
Proof. apply checked_panic. Qed.
Lemma usizec_panic {E} c z q : @usizec E c z = Panic q -> debug c = true /\ q = POverflow.
Proof. apply checked_panic. Qed.

Lemma bytes_take n i r s : take n i = Ok (r, s) -> is_bytes i -> is_bytes s /\ is_bytes r.
Proof.
  unfold take. destruct (_ <? _); [discriminate|]. intros [= <- <-] Hi.
  rewrite <- (firstn_skipn (Z.to_nat n) i) in Hi. now apply is_bytes_app in Hi.
Qed.
Lemma bytes_rest {A} (p : parser A) L i r a : sound p L -> is_bytes i -> p i = Ok (r, a) -> is_bytes r.
Proof. intros Hp Hi H. apply Hp in H as (e & -> & _); [|exact Hi]. now apply is_bytes_app_r in Hi. Qed.

Lemma parse_properties_maps_overflow c : only_overflow c (parse_properties_maps c).
Proof.
  intros i q Hi. unfold parse_properties_maps.
  destruct (parse_dword_as_usize c i) as [[i1 sz]|?|?] eqn:E1; cbn [bind]; try discriminate;
    [|destruct (parse_dword_as_usize_safe _ _ _ E1)].
  eapply bytes_rest in E1; [|apply parse_dword_as_usize_sound|exact Hi].
  destruct (parse_dword_as_usize c i1) as [[i2 n]|?|?] eqn:E2; cbn [bind]; try discriminate;
    [|destruct (parse_dword_as_usize_safe _ _ _ E2)].
  eapply bytes_rest in E2; [|apply parse_dword_as_usize_sound|exact E1].
  destruct (usizec c (sz - 8)) as [k|?|?] eqn:E3; cbn [bind]; try discriminate.
  2: { intros [= <-]. exact (usizec_panic _ _ _ E3). }
  destruct (take k i2) as [[i3 area]|?|?] eqn:E4; cbn [bind]; try discriminate;
    [|destruct (take_safe _ _ _ E4)].
  apply bytes_take in E4 as [Hb _]; [|exact E2].
  destruct (count _ n area) eqn:E5; try discriminate.
  destruct (count_maps_safe _ _ _ Hb _ E5).
Qed.

Lemma parse_user_data_overflow c : only_overflow c (parse_user_data_chunk c).
Proof.
  intros i q Hi. unfold parse_user_data_chunk. cbv zeta.
  destruct (dword i) as [[i1 fl]|?|?] eqn:E1; cbn [bind]; try discriminate;
    [|destruct (le_uint_safe _ _ _ E1)].
  eapply bytes_rest in E1; [|apply dword_sound|exact Hi].
  match goal with |- bind ?m _ = _ -> _ => destruct m as [[i2 tx]|?|?] eqn:E2; cbn [bind]; try discriminate end;
    [|destruct (cond_safe _ _ parse_string_safe _ _ E2)].
  eapply bytes_rest in E2; [|apply cond_sound, parse_string_sound|exact E1].
  match goal with |- bind ?m _ = _ -> _ => destruct m as [[i3 co]|?|?] eqn:E3; cbn [bind]; try discriminate end;
    [|destruct (cond_safe _ _ parse_color_safe _ _ E3)].
  eapply bytes_rest in E3; [|apply cond_sound, parse_color_sound|exact E2].
  match goal with |- bind ?m _ = _ -> _ => destruct m as [[i4 pm]|?|?] eqn:E4; cbn [bind]; try discriminate end.
  intros [= <-]. unfold cond in E4. destruct (contains _ _); [|discriminate].
  unfold pmap in E4. destruct (parse_properties_maps c i3) as [[? ?]|?|?] eqn:E5; cbn [bind] in E4; try discriminate.
  injection E4 as <-. exact (parse_properties_maps_overflow _ _ _ E3 E5).
Qed.

Lemma just_panic {A} (f : A -> chunk) (p : parser A) i q : just f (p i) = Panic q -> p i = Panic q.
Proof. unfold just. destruct (p i) as [[? ?]|?|?]; cbn [bind]; try discriminate. now intros [= <-]. Qed.

Lemma parse_chunk_data_overflow c t d q : is_bytes d ->
  parse_chunk_data c t d = Panic q -> debug c = true /\ q = POverflow.
Proof.
  intros Hd H. destruct t as [t|w]; [destruct t|]; cbn [parse_chunk_data] in H; try discriminate;
    apply just_panic in H;
    try (match type of H with ?p d = _ => assert (S : nopanic p) by auto with psafe end; destruct (S _ _ H)).
  exact (parse_user_data_overflow _ _ _ Hd H).
Qed.

Lemma parse_chunk_overflow c : only_overflow c (parse_chunk c).
Proof.
  intros i q Hi. unfold parse_chunk.
  destruct (dword_size _ i) as [[i1 sz]|?|?] eqn:E1; cbn [bind]; try discriminate;
    [|destruct (dword_size_safe _ _ _ E1)].
  eapply bytes_rest in E1; [|apply dword_size_sound|exact Hi].
  destruct (u32c c (sz - 4)) as [n|?|?] eqn:E2; cbn [bind]; try discriminate.
  2: { intros [= <-]. exact (u32c_panic _ _ _ E2). }
  destruct (take n i1) as [[rest d0]|?|?] eqn:E3; cbn [bind]; try discriminate;
    [|destruct (take_safe _ _ _ E3)].
  apply bytes_take in E3 as [Hb _]; [|exact E1].
  destruct (parse_chunk_type d0) as [[d t]|?|?] eqn:E4; cbn [bind]; try discriminate;
    [|assert (S : nopanic parse_chunk_type) by (apply pmap_safe; auto with psafe); destruct (S _ _ E4)].
  apply pmap_inv in E4 as (w & E4 & ->).
  eapply bytes_rest in E4; [|apply word_sound|exact Hb].
  destruct (parse_chunk_data c _ d) eqn:E5; cbn [bind]; try discriminate.
  intros [= <-]. exact (parse_chunk_data_overflow _ _ _ _ E4 E5).
Qed.

(** Parsers whose rest is a suffix of the input. *)
Definition suffixing {A} (p : parser A) : Prop :=
  forall i r a, p i = Ok (r, a) -> exists e, i = e ++ r.
Lemma take_suffix n i r s : take n i = Ok (r, s) -> i = s ++ r.
Proof. unfold take. destruct (_ <? _); [discriminate|]. intros [= <- <-]. symmetry. apply firstn_skipn. Qed.
Lemma le_uint_suffix n : suffixing (le_uint n).
Proof.
  intros i r a. unfold le_uint. destruct (_ <? _)%nat; [discriminate|]. intros [= <- _].
  exists (firstn n i). symmetry. apply firstn_skipn.
Qed.
Lemma dword_size_suffix f : suffixing (dword_size f).
Proof.
  intros i r a H. unfold dword_size in H. pbind H. destruct (4 <=? z); [|discriminate].
  injection H as <- _. exact (le_uint_suffix _ _ _ _ E).
Qed.
Lemma framed_suffix c {A} (k : bytes -> bytes -> pres A) i r a :
  (forall rest d r a, k rest d = Ok (r, a) -> r = rest) ->
  (let* (input, size) := dword_size EInvalidFrameSize i in
   let* n := u32c c (size - 4) in
   let* (rest, input) := take n input in k rest input) = Ok (r, a) ->
  exists e, i = e ++ r /\ (4 <= length e)%nat.
Proof.
  intros Hk H. destruct (dword_size _ i) as [[i1 size]|?|?] eqn:E; cbn [bind] in H; try discriminate.
  destruct (u32c c _) as [n|?|?]; cbn [bind] in H; try discriminate.
  destruct (take n i1) as [[rest d]|?|?] eqn:Et; cbn [bind] in H; try discriminate.
  apply Hk in H as ->. apply take_suffix in Et as ->.
  assert (Hl : (length i = 4 + length (d ++ rest))%nat).
  { unfold dword_size in E. pbind E. destruct (4 <=? z); [|discriminate]. injection E as -> _.
    now apply le_uint_len in E0. }
  apply dword_size_suffix in E as (e & ->). exists (e ++ d). rewrite app_assoc. split; [reflexivity|].
  rewrite !app_length in *. lia.
Qed.
Lemma parse_chunk_suffix c : suffixing (parse_chunk c).
Proof.
  intros i r a H. apply framed_suffix in H as (e & -> & _); [eauto|].
  clear. intros rest d r a H. destruct (parse_chunk_type d) as [[d' t]|?|?]; cbn [bind] in H; try discriminate.
  destruct (parse_chunk_data c t d'); cbn [bind] in H; try discriminate. now injection H as <- _.
Qed.
Lemma parse_rawframe_suffix c i r a : parse_rawframe c i = Ok (r, a) ->
  exists e, i = e ++ r /\ (4 <= length e)%nat.
Proof.
  intro H. apply framed_suffix in H; [exact H|].
  clear. intros rest d r a H.
  repeat match type of H with bind ?m _ = _ => destruct m as [[? ?]|?|?]; cbn [bind] in H; try discriminate end.
  now injection H as <- _.
Qed.

Lemma count_overflow c {A} (p : parser A) n : suffixing p -> only_overflow c p -> only_overflow c (count p n).
Proof.
  intros Hs Hp. unfold count. induction (Z.to_nat n) as [|m IH]; intros i q Hi; cbn [count_nat]; [discriminate|].
  destruct (p i) as [[r a]|?|?] eqn:E; cbn [bind]; try discriminate.
  - destruct (Hs _ _ _ E) as (e & ->). apply is_bytes_app_r in Hi.
    destruct (count_nat p m r) as [[? ?]|?|?] eqn:E2; cbn [bind]; try discriminate.
    intros [= <-]. exact (IH _ _ Hi E2).
  - intros [= <-]. exact (Hp _ _ Hi E).
Qed.

Lemma parse_rawframe_overflow c : only_overflow c (parse_rawframe c).
Proof.
  intros i q Hi. unfold parse_rawframe.
  destruct (dword_size _ i) as [[i1 sz]|?|?] eqn:E1; cbn [bind]; try discriminate;
    [|destruct (dword_size_safe _ _ _ E1)].
  eapply bytes_rest in E1; [|apply dword_size_sound|exact Hi].
  destruct (u32c c (sz - 4)) as [n|?|?] eqn:E2; cbn [bind]; try discriminate.
  2: { intros [= <-]. exact (u32c_panic _ _ _ E2). }
  destruct (take n i1) as [[rest d0]|?|?] eqn:E3; cbn [bind]; try discriminate;
    [|destruct (take_safe _ _ _ E3)].
  apply bytes_take in E3 as [Hb _]; [|exact E1]. clear E1 Hi.
  repeat (match goal with |- bind (?p ?i) _ = Panic _ -> _ =>
    assert_fails (constr_eq p (parse_chunks c 0));
    let E := fresh "E" in destruct (p i) as [[? ?]|?|?] eqn:E; cbn [bind]; [|discriminate|
      let S := fresh in assert (S : nopanic p) by (auto with psafe); destruct (S _ _ E)];
    first [ apply tag_inv in E as [-> _]; apply is_bytes_app_r in Hb
          | eapply bytes_rest in E; [|solve [eauto with psound]|exact Hb]; clear Hb; rename E into Hb ] end).
  match goal with |- bind ?m _ = _ -> _ => destruct m as [[? ?]|?|?] eqn:E; cbn [bind]; try discriminate end.
  intros [= <-]. unfold parse_chunks in E.
  exact (count_overflow c _ _ (parse_chunk_suffix c) (parse_chunk_overflow c) _ _ Hb E).
Qed.

Lemma many_loop_overflow c fuel : forall acc i q, is_bytes i -> (length i < fuel)%nat ->
  many_loop (parse_rawframe c) fuel acc i = Panic q -> debug c = true /\ q = POverflow.
Proof.
  induction fuel as [|fuel IH]; intros acc i q Hi Hl; [lia|]. cbn [many_loop].
  destruct (parse_rawframe c i) as [[i' a]|[e|e]|p] eqn:E; try discriminate.
  - destruct (parse_rawframe_suffix _ _ _ _ E) as (e & -> & He). rewrite app_length in *.
    destruct (_ =? _)%nat; [discriminate|]. apply is_bytes_app_r in Hi. apply IH; [exact Hi|lia].
  - intros [= <-]. exact (parse_rawframe_overflow _ _ _ Hi E).
Qed.

Lemma parse_raw_file_overflow c i q : is_bytes i -> parse_raw_file c i = Panic q ->
  debug c = true /\ q = POverflow.
Proof.
  intro Hi. unfold parse_raw_file, parse_frames, complete, all_consuming, many1.
  destruct (parse_header i) as [[i1 h]|?|?] eqn:E1; cbn [bind]; try discriminate;
    [|destruct (parse_header_safe _ _ E1)].
  eapply bytes_rest in E1; [|apply parse_header_sound|exact Hi].
  destruct (parse_rawframe c i1) as [[i2 f]|?|?] eqn:E2; cbn [bind]; try discriminate.
  2: { intros [= <-]. exact (parse_rawframe_overflow _ _ _ E1 E2). }
  destruct (parse_rawframe_suffix _ _ _ _ E2) as (e & -> & _). apply is_bytes_app_r in E1.
  destruct (many_loop _ _ _ i2) as [[i3 l]|?|?] eqn:E3; cbn [bind]; try discriminate.
  - destruct i3; discriminate.
  - intros [= <-]. eapply many_loop_overflow; [exact E1| |exact E3]. lia.
Qed.
