(** Every chunk parser reads exactly its layout. *)
From Verif.Model Require Import Chunks.
From Verif.Proofs Require Import ParseLib.
Local Ltac Zify.zify_post_hook ::= Z.div_mod_to_equations.

(** ** Tactics *)
Create HintDb psound.
#[export] Hint Resolve byte_sound word_sound dword_sound short_sound long_sound
  parse_string_sound : psound.
#[export] Hint Extern 4 (0 <= _) =>
  (unfold uint, u8, u16, u32 in *; lia) : psound.
#[export] Hint Extern 4 (0 < _)%nat => lia : psound.
#[export] Hint Resolve le_uint_sound le_int_sound count_sound cond_sound take_sound : psound.

(** Replace the result of a sub-parser in hypothesis [E] by what it says about
    the input. *)
Ltac pconv E Hi :=
  match type of E with
  | ?p ?i = Ok (?r, ?v) =>
      let S := fresh "S" in
      eassert (S : sound p _) by (eauto with psound);
      apply S in E; [|exact Hi]; clear S; cbn beta in E;
      let e := fresh "e" in
      destruct E as (e & -> & E);
      apply is_bytes_app_r in Hi;
      let V := fresh "V" in
      match type of E with
      | uint_l _ _ _ => destruct E as [V ->]
      | sint_l _ _ _ => destruct E as [V ->]
      | _ => idtac
      end
  end.
Ltac ptag E Hi := apply tag_inv in E as [-> ->]; apply is_bytes_app_r in Hi.
Ltac pone H Hi :=
  let E := fresh "E" in
  match type of H with
  | bind ?m _ = Ok _ =>
      destruct m as [[? ?]|?|?] eqn:E; cbn [bind] in H; [|discriminate H|discriminate H];
      first [ptag E Hi | pconv E Hi]
  end.
Ltac psteps H Hi := repeat pone H Hi.
Ltac psub :=
  repeat match goal with
  | H : uint_l _ _ _ |- _ => destruct H as [? ->]
  | H : sint_l _ _ _ |- _ => destruct H as [? ->]
  | H : _ /\ _ |- _ => destruct H
  end; subst.
(** Close [exists e, i = e ++ r /\ L a e]. *)
Ltac pexists := eexists; split; [rewrite ?app_assoc; reflexivity|]; rewrite <- ?app_assoc.

Ltac papp_step :=
  first
    [ rewrite word_app by assumption | rewrite dword_app by assumption
    | rewrite byte_app by assumption | rewrite short_app by assumption
    | rewrite long_app by assumption | rewrite take_app by assumption
    | rewrite tag_app
    | rewrite le_uint_app by assumption
    | erewrite parse_string_app by eassumption ];
  cbn [bind].
Ltac papp := rewrite <- ?app_assoc; cbn [bind]; repeat papp_step.

(** ** Flags *)
Lemma contains_testbit all f k :
  0 <= k -> Z.testbit all k = true -> contains (from_bits_truncate all f) (2 ^ k) = Z.testbit f k.
Proof.
  intros Hk Ha. unfold contains, from_bits_truncate. rewrite <- Z.land_assoc.
  assert (E : Z.land all (2 ^ k) = 2 ^ k).
  { apply Z.bits_inj'. intros n Hn. rewrite Z.land_spec, Z.pow2_bits_eqb by lia.
    destruct (Z.eqb_spec k n) as [<-|]; [now rewrite Ha|apply andb_false_r]. }
  rewrite E. destruct (Z.testbit f k) eqn:Ef.
  - apply Z.eqb_eq. apply Z.bits_inj'. intros n Hn. rewrite Z.land_spec, Z.pow2_bits_eqb by lia.
    destruct (Z.eqb_spec k n) as [<-|]; [now rewrite Ef|apply andb_false_r].
  - apply Z.eqb_neq. intro H. apply (f_equal (fun z => Z.testbit z k)) in H.
    rewrite Z.land_spec, Z.pow2_bits_true, Ef in H by lia. discriminate.
Qed.
Lemma truncate_mod all n f : 0 <= n -> all = Z.ones n -> from_bits_truncate all f = f mod 2 ^ n.
Proof. intros Hn ->. unfold from_bits_truncate. now apply Z.land_ones. Qed.

(** ** Scalars *)
Lemma parse_dword_as_usize_sound c : sound (parse_dword_as_usize c) (uint_l 4).
Proof.
  intros i r a Hi H. unfold parse_dword_as_usize in H. psteps H Hi.
  destruct (_ <? _); [|discriminate]. injection H as <- <-. pexists. split; [assumption|reflexivity].
Qed.
Lemma parse_dword_as_usize_app c v r : cfg_ok c -> u32 v ->
  parse_dword_as_usize c (le 4 v ++ r) = Ok (r, v).
Proof.
  intros Hc Hv. unfold parse_dword_as_usize. papp.
  replace (v <? 2 ^ usize_bits c) with true; [reflexivity|].
  symmetry. unfold u32, uint in Hv. apply Z.ltb_lt.
  destruct Hc as [->| ->]; cbn in *; lia.
Qed.
#[export] Hint Resolve parse_dword_as_usize_sound : psound.

Lemma parse_dword_as_u8_sound e : sound (parse_dword_as_u8 e) (fun v b => 0 <= v <= 255 /\ b = le 4 v).
Proof.
  intros i r a Hi H. unfold parse_dword_as_u8 in H. psteps H Hi. psub.
  destruct (Z.ltb_spec z 256); [|discriminate]. injection H as <- <-. pexists.
  unfold uint in *. split; [lia|reflexivity].
Qed.
Lemma parse_dword_as_u8_app e v r : 0 <= v <= 255 -> parse_dword_as_u8 e (le 4 v ++ r) = Ok (r, v).
Proof.
  intro Hv. unfold parse_dword_as_u8. rewrite dword_app by (unfold u32, uint; cbn; lia). cbn [bind].
  replace (v <? 256) with true by lia. reflexivity.
Qed.
#[export] Hint Resolve parse_dword_as_u8_sound : psound.

Lemma parse_point_reads : sound parse_point point_l /\ accepts parse_point point_l.
Proof.
  split.
  - intros i r a Hi H. unfold parse_point in H. psteps H Hi. psub. injection H as <- <-.
    pexists. split; [assumption|]. split; [assumption|reflexivity].
  - intros e r [x y] (H1 & H2 & ->). cbn [pt_x pt_y] in *. unfold parse_point. papp. reflexivity.
Qed.
Lemma parse_size_reads : sound parse_size size_l /\ accepts parse_size size_l.
Proof.
  split.
  - intros i r a Hi H. unfold parse_size in H. psteps H Hi. psub. injection H as <- <-.
    pexists. split; [assumption|]. split; [assumption|reflexivity].
  - intros e r [x y] (H1 & H2 & ->). cbn [sz_width sz_height] in *. unfold parse_size. papp. reflexivity.
Qed.
Definition parse_point_sound := proj1 parse_point_reads.
Definition parse_size_sound := proj1 parse_size_reads.
#[export] Hint Resolve parse_point_sound parse_size_sound : psound.
Lemma parse_rect_reads : sound parse_rect rect_l /\ accepts parse_rect rect_l.
Proof.
  split.
  - intros i r a Hi H. unfold parse_rect in H. psteps H Hi. injection H as <- <-.
    pexists. exists e, e0. auto.
  - intros e r [x y] (e1 & e2 & H1 & H2 & ->). cbn [rc_point rc_size] in *. unfold parse_rect. papp.
    rewrite (proj2 parse_point_reads _ _ _ H1). cbn [bind].
    rewrite (proj2 parse_size_reads _ _ _ H2). reflexivity.
Qed.
Lemma le4_split h l : u16 h -> u16 l -> le 4 (h * 65536 + l) = le 2 l ++ le 2 h.
Proof.
  unfold u16, uint. cbn [Z.of_nat Pos.of_succ_nat Pos.succ]. intros Hh Hl.
  change (256 ^ 2) with 65536 in *. cbn [le app]. repeat (apply f_equal2; [lia|]). reflexivity.
Qed.
Lemma fixed_reads : sound fixed fixed_l /\ accepts fixed fixed_l.
Proof.
  split.
  - intros i r a Hi H. unfold fixed in H. psteps H Hi. psub. injection H as <- <-.
    pexists. split; [assumption|]. split; [assumption|]. symmetry. now apply le4_split.
  - intros e r [x y] (H1 & H2 & ->). cbn [fx_0 fx_1] in *. rewrite le4_split by assumption.
    unfold fixed. papp. reflexivity.
Qed.
Lemma le1_u8 v : u8 v -> le 1 v = [v].
Proof. unfold u8, uint. cbn [le]. change (256 ^ Z.of_nat 1) with 256. intro. f_equal. lia. Qed.
Lemma parse_color_reads : sound parse_color color_l /\ accepts parse_color color_l.
Proof.
  split.
  - intros i r a Hi H. unfold parse_color in H. psteps H Hi. psub. injection H as <- <-.
    pexists. rewrite !le1_u8 by assumption. split; [|reflexivity].
    repeat (apply Forall_cons || apply Forall_nil); assumption.
  - intros e r [x y z w] (H1 & ->). cbn [red green blue alpha] in *.
    inversion H1 as [|? ? Hx H2]; subst. inversion H2 as [|? ? Hy H3]; subst.
    inversion H3 as [|? ? Hz H4]; subst. inversion H4 as [|? ? Hw H5]; subst.
    change ([x; y; z; w] ++ r) with ([x] ++ [y] ++ [z] ++ [w] ++ r).
    rewrite <- (le1_u8 x), <- (le1_u8 y), <- (le1_u8 z), <- (le1_u8 w) by assumption.
    unfold parse_color. papp. rewrite ?le1_u8 by assumption. reflexivity.
Qed.
Lemma parse_rgb_reads : sound parse_rgb rgb_l /\ accepts parse_rgb rgb_l.
Proof.
  split.
  - intros i r a Hi H. unfold parse_rgb in H. psteps H Hi. psub. injection H as <- <-.
    pexists. rewrite !le1_u8 by assumption. split; [|reflexivity].
    repeat (apply Forall_cons || apply Forall_nil); assumption.
  - intros e r [x y z] (H1 & ->). cbn [rgb_red rgb_green rgb_blue] in *.
    inversion H1 as [|? ? Hx H2]; subst. inversion H2 as [|? ? Hy H3]; subst.
    inversion H3 as [|? ? Hz H4]; subst.
    change ([x; y; z] ++ r) with ([x] ++ [y] ++ [z] ++ r).
    rewrite <- (le1_u8 x), <- (le1_u8 y), <- (le1_u8 z) by assumption.
    unfold parse_rgb. papp. rewrite ?le1_u8 by assumption. reflexivity.
Qed.
Definition parse_rect_sound := proj1 parse_rect_reads.
Definition fixed_sound := proj1 fixed_reads.
Definition parse_color_sound := proj1 parse_color_reads.
Definition parse_rgb_sound := proj1 parse_rgb_reads.
#[export] Hint Resolve parse_rect_sound fixed_sound parse_color_sound parse_rgb_sound : psound.

(** ** Enumerations *)
Lemma table_over {A} (rows : list A) u w : zlen rows <= w -> table rows u w = u w.
Proof. intro H. unfold table. apply nth_overflow. unfold zlen in H. lia. Qed.

(** Both sides agree on the rows; past them both are [unknown w]. *)
Ltac enum_tac n w H :=
  destruct (Z.ltb_spec w (Z.of_nat n)) as [Hc|Hc];
  [ let Hin := fresh in
    assert (Hin : In w (map Z.of_nat (seq 0 n)))
      by (rewrite in_map_iff; exists (Z.to_nat w); split; [lia|]; apply in_seq; lia);
    cbn in Hin; repeat (destruct Hin as [<-|Hin]; [reflexivity|]); destruct Hin
  | rewrite table_over by (cbn; lia);
    destruct w as [|p|p]; [lia| |lia];
    do 6 (try (destruct p as [p|p|]; try reflexivity; try lia)) ].

Lemma blend_mode_from_code w : 0 <= w -> blend_mode_from w = blend_mode_code w.
Proof.
  intro H. unfold blend_mode_from, blend_mode_from_repr, blend_mode_code. enum_tac 20%nat w H.
Qed.
Lemma layer_type_from_code w : 0 <= w -> layer_type_from w = layer_type_code w.
Proof. intro H. unfold layer_type_from, layer_type_code. enum_tac 3%nat w H. Qed.
Lemma direction_from_code w : 0 <= w -> animation_direction_from w = direction_code w.
Proof.
  intro H. unfold animation_direction_from, animation_direction_from_repr, direction_code.
  enum_tac 5%nat w H.
Qed.
Lemma external_file_from_code w : 0 <= w -> external_file_type_from w = external_file_code w.
Proof.
  intro H. unfold external_file_type_from, external_file_type_from_repr, external_file_code.
  enum_tac 4%nat w H.
Qed.
Lemma color_depth_from_code w : 0 <= w -> color_depth_from w = color_depth_code w.
Proof.
  intro H. unfold color_depth_from, color_depth_code.
  destruct (Z.eqb_spec w 32) as [->|]; [reflexivity|].
  destruct (Z.eqb_spec w 16) as [->|]; [reflexivity|].
  destruct (Z.eqb_spec w 8) as [->|]; [reflexivity|].
  destruct w as [|p|p]; [reflexivity| |reflexivity].
  do 6 (try (destruct p as [p|p|]; try reflexivity; try lia)).
Qed.
Lemma cel_type_from_cases w : 0 <= w ->
  cel_type_from w = table [CTRawImageData; CTLinkedCel; CTCompressedImage; CTCompressedTilemap;
                           CTUnknown 0] CTUnknown w.
Proof. intro H. unfold cel_type_from, cel_type_from_repr. enum_tac 5%nat w H. Qed.
Lemma profile_from_cases w : 0 <= w ->
  color_profile_type_from w = table [CPTNone; CPTSrgb; CPTEmbeddedICC; CPTUnknown 0] CPTUnknown w.
Proof. intro H. unfold color_profile_type_from, color_profile_type_from_repr. enum_tac 4%nat w H. Qed.

(** ** Header *)
Lemma parse_color_depth_sound :
  sound parse_color_depth (fun d e => exists w, u16 w /\ d = color_depth_code w /\ e = le 2 w).
Proof.
  intros i r a Hi H. unfold parse_color_depth in H. psteps H Hi. psub. injection H as <- <-.
  pexists. exists z. split; [assumption|]. split; [|reflexivity].
  apply color_depth_from_code. unfold uint in *. lia.
Qed.
#[export] Hint Resolve parse_color_depth_sound : psound.

Ltac conj_all := repeat (split; [eassumption || reflexivity || lia|]).

Lemma zlen0_nil {A} (l : list A) : (length l =? 0)%nat = true -> l = [].
Proof. destruct l; [reflexivity|discriminate]. Qed.

Lemma header_l_zlen h e : header_l h e -> zlen e = 128.
Proof.
  intros (d & g1 & g2 & H). decompose [and] H. subst.
  rewrite !zlen_app, ?zlen_le, ?zlen_les, ?zlen_cons, zlen_nil.
  repeat match goal with |- context [Z.of_nat ?n] => progress change (Z.of_nat n) with (Z.of_nat n) end.
  lia.
Qed.

Lemma parse_header_sound : sound parse_header header_l.
Proof.
  intros i r h Hi H. unfold parse_header in H.
  destruct (take 128 i) as [[rest hd]|?|?] eqn:E; cbn [bind] in H; try discriminate.
  apply take_inv in E as [-> Hl]; [|lia]. apply is_bytes_app in Hi as [Hi _].
  psteps H Hi.
  match type of H with (if negb (?n =? 0)%nat then _ else _) = _ =>
    destruct (n =? 0)%nat eqn:El; cbn [negb] in H; [|discriminate] end.
  apply zlen0_nil in El. psub.
  match goal with Hd : exists w, u16 w /\ _ |- _ => destruct Hd as (dw & Hdw & -> & ->) end.
  injection H as <- <-. eexists. split; [reflexivity|].
  exists dw. do 2 eexists. cbn [h_file_size h_frames h_width h_height h_color_depth h_flags h_speed
    h_transparent_index h_color_count h_pixel_width h_pixel_height h_grid_x h_grid_y
    h_grid_width h_grid_height].
  do 15 (split; [eassumption|]). split; [eassumption|]. split; [eassumption|]. split; [reflexivity|].
  rewrite app_nil_r. reflexivity.
Qed.

Lemma parse_color_depth_app w r : u16 w -> parse_color_depth (le 2 w ++ r) = Ok (r, color_depth_code w).
Proof.
  intro H. unfold parse_color_depth. papp. rewrite color_depth_from_code; [reflexivity|].
  unfold u16, uint in H. lia.
Qed.

Lemma parse_header_accepts : accepts parse_header header_l.
Proof.
  intros e r h Hh. unfold parse_header. rewrite take_app by (eapply header_l_zlen, Hh). cbn [bind].
  destruct Hh as (d & g1 & g2 & H). decompose [and] H. subst. clear H.
  change (le 2 42464) with HEADER_MAGIC_NUMBER.
  change ([0; 0; 0; 0; 0; 0; 0; 0]) with ([0; 0; 0; 0] ++ [0; 0; 0; 0]).
  rewrite <- (app_nil_r g2).
  papp. rewrite parse_color_depth_app by assumption. cbn [bind]. papp.
  destruct h; cbn in *. now subst.
Qed.

(** ** Old palette *)
Lemma parse_packet_sound : sound parse_packet packet_l.
Proof.
  intros i r a Hi H. unfold parse_packet in H.
  pone H Hi. pone H Hi.
  assert (Hn : 0 <= (if z0 =? 0 then 256 else z0)) by (unfold uint in *; destruct (z0 =? 0); lia).
  pone H Hi. psub. injection H as <- <-. pexists.
  exists z0. eexists. cbn [pk_entries_to_skip pk_colors]. conj_all. reflexivity.
Qed.
Lemma parse_packet_accepts : accepts parse_packet packet_l.
Proof.
  intros e r [s cs] (n & body & H1 & H2 & H3 & H4 & ->). cbn [pk_entries_to_skip pk_colors] in *.
  unfold parse_packet. papp. rewrite (count_app _ _ _ _ _ _ H3 (proj2 parse_rgb_reads) H4). reflexivity.
Qed.
#[export] Hint Resolve parse_packet_sound : psound.
Lemma parse_old_palette_sound : sound parse_old_palette_chunk old_palette_l.
Proof.
  intros i r a Hi H. unfold parse_old_palette_chunk in H. psteps H Hi. psub. injection H as <- <-.
  pexists. eexists. cbn [op_packets]. conj_all. reflexivity.
Qed.
Lemma parse_old_palette_accepts : accepts parse_old_palette_chunk old_palette_l.
Proof.
  intros e r [ps] (body & H1 & H2 & ->). cbn [op_packets] in *. unfold parse_old_palette_chunk. papp.
  rewrite (count_app _ _ _ _ _ _ eq_refl parse_packet_accepts H2). reflexivity.
Qed.

(** ** Palette *)
Lemma pef_has_name f : contains (from_bits_truncate PEF_HAS_NAME f) PEF_HAS_NAME = Z.testbit f 0.
Proof. apply (contains_testbit PEF_HAS_NAME f 0); [lia|reflexivity]. Qed.

Lemma parse_palette_entry_sound : sound parse_palette_entry palette_entry_l.
Proof.
  intros i r a Hi H. unfold parse_palette_entry in H. cbv zeta in H.
  psteps H Hi. psub. injection H as <- <-. pexists.
  exists z. do 2 eexists. cbn [pe_color pe_name]. rewrite pef_has_name in *.
  split; [assumption|]. split; [eassumption|]. split; [eassumption|]. split; [assumption|reflexivity].
Qed.
Lemma parse_palette_entry_accepts : accepts parse_palette_entry palette_entry_l.
Proof.
  intros e r [k n] (f & e1 & e2 & H1 & H2 & H3 & H4 & ->). cbn [pe_color pe_name] in *.
  unfold parse_palette_entry. papp. rewrite (proj2 parse_color_reads _ _ _ H2). cbn [bind].
  rewrite pef_has_name. erewrite cond_app; [reflexivity| |exact H3|exact H4].
  intros ? ? ?. apply parse_string_app.
Qed.
#[export] Hint Resolve parse_palette_entry_sound : psound.
Lemma parse_palette_chunk_sound c : sound (parse_palette_chunk c) palette_l.
Proof.
  intros i r a Hi H. unfold parse_palette_chunk in H. psteps H Hi. psub.
  destruct (Z.ltb_spec z1 z0); [discriminate|]. psteps H Hi. psub. injection H as <- <-.
  pexists. do 2 eexists. cbn [pc_first pc_last pc_entries].
  split; [eassumption|]. split; [lia|]. split; [lia|]. split; [eassumption|].
  split; [eassumption|reflexivity].
Qed.
Lemma parse_palette_chunk_accepts c : cfg_ok c -> accepts (parse_palette_chunk c) palette_l.
Proof.
  intros Hc e r [a b l] (g & body & H1 & H2 & H3 & H4 & H5 & ->). cbn [pc_first pc_last pc_entries] in *.
  unfold parse_palette_chunk. rewrite <- ?app_assoc.
  rewrite parse_dword_as_usize_app by assumption. cbn [bind].
  rewrite parse_dword_as_u8_app by lia. cbn [bind].
  rewrite parse_dword_as_u8_app by lia. cbn [bind].
  replace (b <? a) with false by lia. papp.
  rewrite (count_app _ _ _ _ _ _ eq_refl parse_palette_entry_accepts H5). reflexivity.
Qed.

(** ** Layer *)
Lemma layer_type_tilemap ty : 0 <= ty ->
  match layer_type_from ty with LTilemap => true | _ => false end = true <-> ty = 2.
Proof.
  intro H. rewrite layer_type_from_code by exact H. unfold layer_type_code.
  destruct (Z.ltb_spec ty 3).
  - assert (C : ty = 0 \/ ty = 1 \/ ty = 2) by lia. destruct C as [->|[->| ->]]; vm_compute; split; intro; first [reflexivity|discriminate].
  - rewrite table_over by (cbn; lia). split; [discriminate|lia].
Qed.

Lemma parse_layer_sound : sound parse_layer_chunk layer_l.
Proof.
  intros i r a Hi H. unfold parse_layer_chunk in H. cbv zeta in H.
  psteps H Hi. psub. injection H as <- <-. pexists.
  exists z, z0, z2, z3, z4. do 3 eexists.
  cbn [lc_flags lc_layer_type lc_child_level lc_blend_mode lc_opacity lc_name lc_tileset_index lc_user_data].
  do 10 (split; [eassumption|]).
  split; [apply (truncate_mod LF_ALL 7); [lia|reflexivity]|].
  split; [apply layer_type_from_code; unfold uint in *; lia|].
  split; [apply blend_mode_from_code; unfold uint in *; lia|].
  split; [|split; reflexivity].
  rewrite <- (layer_type_tilemap z0) by (unfold uint in *; lia). assumption.
Qed.
Lemma dword_accepts : accepts dword (uint_l 4).
Proof. intros e r a [H ->]. now apply dword_app. Qed.
Lemma parse_layer_accepts : accepts parse_layer_chunk layer_l.
Proof.
  intros e r l (f & ty & dw & dh & bm & g & e1 & e2 & H). decompose [and] H. clear H. subst e.
  unfold parse_layer_chunk. papp.
  erewrite cond_app; [|apply dword_accepts|eassumption|].
  - cbn [bind]. destruct l; cbn in *. subst. rewrite truncate_mod with (n := 7) by (lia || reflexivity).
    rewrite layer_type_from_code, blend_mode_from_code by (unfold u16, uint in *; lia). reflexivity.
  - rewrite layer_type_tilemap by (unfold u16, uint in *; lia). assumption.
Qed.
