(** Every chunk parser reads exactly its layout, continued: cel, cel extra,
    colour profile, external files, mask, slice, tags, tileset. *)
From Verif.Model Require Import Chunks.
From Verif.Proofs Require Import ParseLib ChunkFacts.
Local Ltac Zify.zify_post_hook ::= Z.div_mod_to_equations.

Lemma u_nonneg n v : uint n v -> 0 <= v.
Proof. unfold uint. lia. Qed.

(** ** Cel *)
Lemma small_cases w n : 0 <= w < Z.of_nat n -> In w (map Z.of_nat (seq 0 n)).
Proof.
  intro H. rewrite in_map_iff. exists (Z.to_nat w). split; [lia|]. apply in_seq. lia.
Qed.
Lemma cel_type_spec ty : 0 <= ty ->
  (ty = 0 /\ cel_type_from ty = CTRawImageData) \/ (ty = 1 /\ cel_type_from ty = CTLinkedCel) \/
  (ty = 2 /\ cel_type_from ty = CTCompressedImage) \/ (ty = 3 /\ cel_type_from ty = CTCompressedTilemap) \/
  (ty = 4 /\ cel_type_from ty = CTUnknown 0) \/ (5 <= ty /\ cel_type_from ty = CTUnknown ty).
Proof.
  intro H. destruct (Z.ltb_spec ty 5) as [H5|H5].
  - assert (Hin := small_cases ty 5 ltac:(lia)). cbn in Hin.
    repeat (destruct Hin as [<-|Hin]; [vm_compute; tauto|]). destruct Hin.
  - do 5 right. split; [lia|]. rewrite cel_type_from_cases by lia. apply table_over. cbn. lia.
Qed.

Lemma parse_cel_content_sound ty i x : is_bytes i -> 0 <= ty ->
  parse_cel_content (cel_type_from ty) i = Ok x -> cel_content_l ty x i.
Proof.
  intros Hi Hty H.
  destruct (cel_type_spec ty Hty) as [[T E]|[[T E]|[[T E]|[[T E]|[[T E]|[T E]]]]]]; rewrite E in H;
    cbn [parse_cel_content] in H; psteps H Hi; psub; injection H as <-; cbn [cel_content_l im_width im_height im_data im_compressed].
  - split; [left; auto|]. conj_all. reflexivity.
  - conj_all. eexists. reflexivity.
  - split; [right; auto|]. conj_all. reflexivity.
  - conj_all. eexists. split; [eassumption|]. rewrite <- ?app_assoc. reflexivity.
  - split; [reflexivity|]. left; auto.
  - split; [reflexivity|]. right; auto.
Qed.
Lemma parse_cel_content_complete ty i x : 0 <= ty ->
  cel_content_l ty x i -> parse_cel_content (cel_type_from ty) i = Ok x.
Proof.
  intros Hty H. destruct (cel_type_spec ty Hty) as [[T E]|[[T E]|[[T E]|[[T E]|[[T E]|[T E]]]]]];
    rewrite E; cbn [parse_cel_content]; destruct x as [im|fr|w h b id xf yf df d|code d]; cbn [cel_content_l] in H;
    decompose [and or ex] H; try lia; subst; try reflexivity;
    try (exfalso; congruence); papp; try reflexivity;
    destruct im; cbn in *; subst; reflexivity.
Qed.

Lemma parse_cel_iff i r x : is_bytes i ->
  parse_cel_chunk i = Ok (r, x) <-> r = [] /\ cel_l x i.
Proof.
  intro Hi. split.
  - intro H. unfold parse_cel_chunk in H. cbv zeta in H. psteps H Hi.
    match type of H with bind ?m _ = _ => destruct m as [cc|?|?] eqn:Ec; cbn [bind] in H; try discriminate end.
    injection H as <- <-. apply parse_cel_content_sound in Ec; [|exact Hi|eapply u_nonneg; eassumption].
    split; [reflexivity|]. psub. exists z3. do 2 eexists.
    cbn [cc_layer_index cc_x cc_y cc_opacity cc_z_index cc_content cc_user_data].
    conj_all. reflexivity.
  - intros (-> & ty & g & body & H). decompose [and] H. subst i. clear H.
    unfold parse_cel_chunk. papp. rewrite parse_cel_content_complete with (x := cc_content x);
      [|eapply u_nonneg; eassumption|assumption].
    cbn [bind]. destruct x; cbn in *. subst. reflexivity.
Qed.

(** ** Cel extra *)
Lemma parse_cel_extra_iff i r x : is_bytes i ->
  parse_cel_extra_chunk i = Ok (r, x) <-> r = [] /\ cel_extra_l x i.
Proof.
  intro Hi. split.
  - intro H. unfold parse_cel_extra_chunk in H. psteps H Hi. injection H as <- <-.
    split; [reflexivity|]. exists z. do 4 eexists.
    cbn [ce_flags ce_precise_x_position ce_precise_y_position ce_width_of_the_cel ce_height_of_the_cel ce_future].
    split; [assumption|]. split; [apply (truncate_mod CEF_PRECISE 1); [lia|reflexivity]|].
    conj_all. reflexivity.
  - intros (-> & f & e1 & e2 & e3 & e4 & H1 & H2 & H3 & H4 & H5 & H6 & ->).
    unfold parse_cel_extra_chunk. papp.
    rewrite (proj2 fixed_reads _ _ _ H3). cbn [bind].
    rewrite (proj2 fixed_reads _ _ _ H4). cbn [bind].
    rewrite (proj2 fixed_reads _ _ _ H5). cbn [bind].
    rewrite (proj2 fixed_reads _ _ _ H6). cbn [bind].
    rewrite truncate_mod with (n := 1) by (lia || reflexivity).
    change (2 ^ 1) with 2. rewrite <- H2. now destruct x.
Qed.

(** ** Colour profile *)
Lemma cpf_testbit f : contains (from_bits_truncate CPF_FIXED_GAMMA f) CPF_FIXED_GAMMA = Z.testbit f 0.
Proof. apply (contains_testbit CPF_FIXED_GAMMA f 0); [lia|reflexivity]. Qed.
Lemma profile_type_spec ty : 0 <= ty ->
  (ty = 0 /\ color_profile_type_from ty = CPTNone) \/ (ty = 1 /\ color_profile_type_from ty = CPTSrgb) \/
  (ty = 2 /\ color_profile_type_from ty = CPTEmbeddedICC) \/
  (ty = 3 /\ color_profile_type_from ty = CPTUnknown 0) \/
  (4 <= ty /\ color_profile_type_from ty = CPTUnknown ty).
Proof.
  intro H. destruct (Z.ltb_spec ty 4) as [H5|H5].
  - assert (Hin := small_cases ty 4 ltac:(lia)). cbn in Hin.
    repeat (destruct Hin as [<-|Hin]; [vm_compute; tauto|]). destruct Hin.
  - do 4 right. split; [lia|]. rewrite profile_from_cases by lia. apply table_over. cbn. lia.
Qed.
Lemma blob_reads : sound (flat_map_p dword take) blob_l /\ accepts (flat_map_p dword take) blob_l.
Proof.
  split.
  - intros i r a Hi H. unfold flat_map_p in H. pone H Hi.
    apply take_inv in H as [-> Hl]; [|eapply u_nonneg; eassumption]. pexists.
    unfold blob_l. rewrite Hl. split; [assumption|reflexivity].
  - intros e r d [H ->]. unfold flat_map_p. papp. now apply take_app.
Qed.
Lemma parse_color_profile_sound : sound parse_color_profile color_profile_l.
Proof.
  intros i r x Hi H. unfold parse_color_profile in H. cbv zeta in H. psteps H Hi. psub.
  destruct (profile_type_spec z ltac:(eapply u_nonneg; eassumption)) as [[T Ep]|[[T Ep]|[[T Ep]|[[T Ep]|[T Ep]]]]];
    rewrite Ep in H; cbn [bind] in H.
  1,2,4,5: injection H as <- <-; pexists;
    exists z, z0; do 3 eexists; exists []; cbn [cp_fixed_gamma cp_profile]; rewrite cpf_testbit; conj_all;
    (split; [tauto|rewrite app_nil_r; reflexivity]).
  match type of H with bind ?m _ = _ => destruct m as [[? ?]|?|?] eqn:Eq; cbn [bind] in H; try discriminate end.
  apply pmap_inv in Eq as (d & Hd & ->). apply (proj1 blob_reads) in Hd as (e' & -> & Hd & ->); [|exact Hi].
  injection H as <- <-. pexists. exists z, z0. do 4 eexists. cbn [cp_fixed_gamma cp_profile].
  rewrite cpf_testbit. conj_all. split; [cbn; split; [assumption|split; [eassumption|reflexivity]]|reflexivity].
Qed.
Lemma parse_color_profile_accepts : accepts parse_color_profile color_profile_l.
Proof.
  intros e r x (ty & f & gm & eg & g & ei & H1 & H2 & H3 & H4 & H5 & H6 & ->).
  unfold parse_color_profile. papp. rewrite (proj2 fixed_reads _ _ _ H3). cbn [bind]. papp.
  rewrite cpf_testbit. destruct x as [fg pf]. cbn [cp_fixed_gamma cp_profile] in *. subst fg.
  destruct (profile_type_spec ty ltac:(eapply u_nonneg; eassumption)) as [[T E]|[[T E]|[[T E]|[[T E]|[T E]]]]];
    rewrite E; destruct pf; decompose [and or] H6; try lia; subst; try reflexivity.
  erewrite pmap_app; [reflexivity|]. apply (proj2 blob_reads). split; [assumption|reflexivity].
Qed.

(** ** External files *)
Lemma parse_external_file_sound : sound parse_external_file external_file_l.
Proof.
  intros i r x Hi H. unfold parse_external_file in H. cbv zeta in H. psteps H Hi. psub.
  injection H as <- <-. pexists. exists z0. do 2 eexists. cbn [ef_entry_id ef_file_type ef_file_name].
  split; [assumption|]. split; [assumption|].
  split; [apply external_file_from_code; eapply u_nonneg; eassumption|]. conj_all. reflexivity.
Qed.
Lemma parse_external_file_accepts : accepts parse_external_file external_file_l.
Proof.
  intros e r [id ft nm] (ty & g & en & H). cbn [ef_entry_id ef_file_type ef_file_name] in H.
  decompose [and] H. subst. unfold parse_external_file. papp.
  rewrite external_file_from_code by (eapply u_nonneg; eassumption). reflexivity.
Qed.
#[export] Hint Resolve parse_external_file_sound : psound.
Lemma parse_external_files_sound c : sound (parse_external_files_chunk c) external_files_l.
Proof.
  intros i r x Hi H. unfold parse_external_files_chunk in H. psteps H Hi. psub.
  injection H as <- <-. pexists. do 2 eexists. cbn [efc_files]. conj_all. reflexivity.
Qed.
Lemma parse_external_files_accepts c : cfg_ok c -> accepts (parse_external_files_chunk c) external_files_l.
Proof.
  intros Hc e r [fs] (g & body & H1 & H2 & H3 & ->). cbn [efc_files] in *.
  unfold parse_external_files_chunk. rewrite <- !app_assoc, parse_dword_as_usize_app by assumption.
  cbn [bind]. papp. rewrite (count_app _ _ _ _ _ _ eq_refl parse_external_file_accepts H3). reflexivity.
Qed.

(** ** Mask *)
Lemma parse_mask_iff i r x : is_bytes i ->
  parse_mask_chunk i = Ok (r, x) <-> r = [] /\ mask_l x i.
Proof.
  intro Hi. split.
  - intro H. unfold parse_mask_chunk in H. psteps H Hi. psub. injection H as <- <-.
    split; [reflexivity|]. do 2 eexists. cbn [mk_x mk_y mk_width mk_height mk_name mk_data].
    conj_all. reflexivity.
  - intros (-> & g & en & H). decompose [and] H. subst i. unfold parse_mask_chunk. papp.
    now destruct x.
Qed.

(** ** Slice *)
Lemma parse_nine_patch_reads : sound parse_nine_patch nine_patch_l /\ accepts parse_nine_patch nine_patch_l.
Proof.
  split.
  - intros i r x Hi H. unfold parse_nine_patch in H. psteps H Hi. injection H as <- <-. pexists.
    cbn. unfold nine_patch_l. cbn [np_x np_y np_width np_height]. conj_all. reflexivity.
  - intros e r [x y w h] H. unfold nine_patch_l in H. cbn [np_x np_y np_width np_height] in H.
    decompose [and] H. subst. unfold parse_nine_patch. papp. reflexivity.
Qed.
Lemma parse_pivot_reads : sound parse_pivot pivot_l /\ accepts parse_pivot pivot_l.
Proof.
  split.
  - intros i r x Hi H. unfold parse_pivot in H. psteps H Hi. injection H as <- <-. pexists.
    unfold pivot_l. cbn [pv_x pv_y]. conj_all. reflexivity.
  - intros e r [x y] H. unfold pivot_l in H. cbn [pv_x pv_y] in H.
    decompose [and] H. subst. unfold parse_pivot. papp. reflexivity.
Qed.
Definition parse_nine_patch_sound := proj1 parse_nine_patch_reads.
Definition parse_pivot_sound := proj1 parse_pivot_reads.
#[export] Hint Resolve parse_nine_patch_sound parse_pivot_sound : psound.

Lemma sf_bits f k : k = 0 \/ k = 1 -> contains (from_bits_truncate SF_ALL f) (2 ^ k) = Z.testbit f k.
Proof. intros [->| ->]; apply contains_testbit; (lia || reflexivity). Qed.

Lemma parse_slice_key_sound f :
  sound (parse_slice_key (from_bits_truncate SF_ALL f)) (slice_key_l f).
Proof.
  intros i r x Hi H. unfold parse_slice_key in H.
  change SF_NINE_PATCH with (2 ^ 0) in H. change SF_PIVOT with (2 ^ 1) in H.
  rewrite !sf_bits in H by auto.
  psteps H Hi. psub. injection H as <- <-. pexists. do 2 eexists.
  cbn [sk_frame_number sk_x sk_y sk_width sk_height sk_nine_patch sk_pivot]. conj_all. reflexivity.
Qed.
Lemma parse_slice_key_accepts f :
  accepts (parse_slice_key (from_bits_truncate SF_ALL f)) (slice_key_l f).
Proof.
  intros e r x (e1 & e2 & H). decompose [and] H. subst e. unfold parse_slice_key. papp.
  change SF_NINE_PATCH with (2 ^ 0). change SF_PIVOT with (2 ^ 1). rewrite !sf_bits by auto.
  erewrite cond_app; [|apply (proj2 parse_nine_patch_reads)|eassumption|assumption]. cbn [bind].
  erewrite cond_app; [|apply (proj2 parse_pivot_reads)|eassumption|assumption]. cbn [bind].
  now destruct x.
Qed.
#[export] Hint Resolve parse_slice_key_sound : psound.
Lemma parse_slice_sound c : sound (parse_slice_chunk c) slice_l.
Proof.
  intros i r x Hi H. unfold parse_slice_chunk in H. cbv zeta in H. psteps H Hi. psub.
  injection H as <- <-. pexists. exists z0. do 3 eexists.
  cbn [sc_name sc_flags sc_slice_keys sc_user_data].
  split; [eassumption|]. split; [assumption|]. split; [apply (zlen_le 4)|]. split; [eassumption|].
  split; [eassumption|].
  split; [apply (truncate_mod SF_ALL 2); [lia|reflexivity]|]. split; reflexivity.
Qed.
Lemma dword_any g r : zlen g = 4 -> exists v, dword (g ++ r) = Ok (r, v).
Proof.
  intro Hl. exists (le_value g).
  assert (Hg : length g = 4%nat) by (unfold zlen in Hl; lia).
  unfold dword, le_uint. rewrite app_length, Hg. cbn [Nat.ltb Nat.leb Nat.add].
  rewrite <- Hg, skipn_length_app, firstn_length_app. reflexivity.
Qed.
Lemma parse_slice_accepts c : cfg_ok c -> accepts (parse_slice_chunk c) slice_l.
Proof.
  intros Hc e r x (f & g & en & body & H). decompose [and] H. subst e. clear H.
  unfold parse_slice_chunk. rewrite <- !app_assoc, parse_dword_as_usize_app by assumption. cbn [bind].
  rewrite dword_app by assumption. cbn [bind].
  destruct (dword_any g (en ++ body ++ r)) as (v & ->); [assumption|]. cbn [bind]. papp.
  rewrite (count_app _ _ _ _ _ _ eq_refl (parse_slice_key_accepts f)) by eassumption. cbn [bind].
  rewrite truncate_mod with (n := 2) by (lia || reflexivity).
  destruct x; cbn in *. subst. reflexivity.
Qed.

(** ** Tags *)
Lemma parse_tag_sound : sound parse_tag tag_l.
Proof.
  intros i r x Hi H. unfold parse_tag in H. psteps H Hi.
  destruct (Z.ltb_spec z0 z); [discriminate|]. cbv zeta in H. psteps H Hi. psub. injection H as <- <-.
  pexists. exists z1. eexists. exists z3. eexists.
  cbn [tg_from tg_to tg_animation_direction tg_animation_repeat tg_color tg_name tg_user_data].
  do 4 (split; [eassumption|]).
  split; [apply direction_from_code; eapply u_nonneg; eassumption|].
  conj_all. reflexivity.
Qed.
Lemma parse_tag_accepts : accepts parse_tag tag_l.
Proof.
  intros e r x (d & g & la & en & H). decompose [and] H. subst e. unfold parse_tag. papp.
  replace (tg_to x <? tg_from x) with false by lia. papp.
  rewrite direction_from_code by (eapply u_nonneg; eassumption).
  destruct x; cbn in *. subst. reflexivity.
Qed.
#[export] Hint Resolve parse_tag_sound : psound.
Lemma parse_tags_sound : sound parse_tags_chunk tags_l.
Proof.
  intros i r x Hi H. unfold parse_tags_chunk in H. psteps H Hi. psub. injection H as <- <-.
  pexists. do 2 eexists. cbn [tc_tags]. conj_all. reflexivity.
Qed.
Lemma parse_tags_accepts : accepts parse_tags_chunk tags_l.
Proof.
  intros e r [ts] (g & body & H1 & H2 & H3 & ->). cbn [tc_tags] in *. unfold parse_tags_chunk. papp.
  rewrite (count_app _ _ _ _ _ _ eq_refl parse_tag_accepts H3). reflexivity.
Qed.

(** ** Tileset *)
Lemma parse_tileset_external_reads :
  sound parse_tileset_external_file tileset_external_l /\
  accepts parse_tileset_external_file tileset_external_l.
Proof.
  split.
  - intros i r x Hi H. unfold parse_tileset_external_file in H. psteps H Hi. injection H as <- <-.
    pexists. unfold tileset_external_l. cbn [te_external_file_id te_tileset_id]. conj_all. reflexivity.
  - intros e r [x y] H. unfold tileset_external_l in H. cbn [te_external_file_id te_tileset_id] in H.
    decompose [and] H. subst. unfold parse_tileset_external_file. papp. reflexivity.
Qed.
Definition parse_tileset_external_sound := proj1 parse_tileset_external_reads.
Lemma parse_tiles_sound : sound parse_tiles blob_l.
Proof. exact (proj1 blob_reads). Qed.
#[export] Hint Resolve parse_tileset_external_sound parse_tiles_sound : psound.
Lemma tf_bits f k : k = 0 \/ k = 1 -> contains (from_bits_truncate TF_ALL f) (2 ^ k) = Z.testbit f k.
Proof. intros [->| ->]; apply contains_testbit; (lia || reflexivity). Qed.
Lemma parse_tileset_sound : sound parse_tileset_chunk tileset_l.
Proof.
  intros i r x Hi H. unfold parse_tileset_chunk in H. cbv zeta in H.
  change TF_EXTERNAL_FILE with (2 ^ 0) in H. change TF_TILES with (2 ^ 1) in H.
  repeat pone H Hi. psub. rewrite !tf_bits in * by auto. injection H as <- <-. pexists.
  exists z0. do 4 eexists.
  cbn [ts_id ts_flags ts_number_of_tiles ts_width ts_height ts_base_index ts_name ts_external_file ts_tiles].
  split; [assumption|]. split; [assumption|].
  split; [apply (truncate_mod TF_ALL 6); [lia|reflexivity]|]. conj_all. reflexivity.
Qed.
Lemma parse_tileset_accepts : accepts parse_tileset_chunk tileset_l.
Proof.
  intros e r x (f & g & en & e1 & e2 & H). decompose [and] H. subst e. clear H.
  unfold parse_tileset_chunk. papp.
  change TF_EXTERNAL_FILE with (2 ^ 0). change TF_TILES with (2 ^ 1). rewrite !tf_bits by auto.
  erewrite cond_app; [|apply (proj2 parse_tileset_external_reads)|eassumption|assumption]. cbn [bind].
  erewrite cond_app; [|apply (proj2 blob_reads)|eassumption|assumption]. cbn [bind].
  rewrite truncate_mod with (n := 6) by (lia || reflexivity).
  destruct x; cbn in *. subst. reflexivity.
Qed.
