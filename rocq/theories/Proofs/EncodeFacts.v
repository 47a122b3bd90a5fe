(** What the writer of Spec/Encode.v writes is an encoding, and everything that
    has an encoding can be written, in no more bytes. *)
From Verif.Model Require Import RawFile.
From Verif.Spec Require Import Utf8Spec Encode.
From Verif.Proofs Require Import ParseLib Utf8Facts ChunkFacts UserDataFacts.
Local Ltac Zify.zify_post_hook ::= Z.div_mod_to_equations.

Definition writes {A} (wf : A -> Prop) (enc : A -> bytes) (L : A -> bytes -> Prop) : Prop :=
  forall x, wf x -> L x (enc x) /\ is_bytes (enc x).
Definition written {A} (wf : A -> Prop) (enc : A -> bytes) (L : A -> bytes -> Prop) : Prop :=
  forall x e, L x e -> is_bytes e -> wf x /\ zlen (enc x) <= zlen e.

(** ** Helpers *)
Lemma zlen_zeros n : zlen (zeros n) = Z.of_nat n.
Proof. unfold zlen, zeros. now rewrite repeat_length. Qed.
Lemma is_bytes_zeros n : is_bytes (zeros n).
Proof. apply Forall_forall. intros x H. apply repeat_spec in H as ->. unfold is_byte. lia. Qed.
Lemma is_bytes_nil : is_bytes [].
Proof. constructor. Qed.
Lemma is_bytes_scalar k : scalar k -> is_bytes (encode_scalar k).
Proof.
  unfold scalar, encode_scalar, is_bytes. intro H.
  destruct (k <? 128) eqn:E1; [|destruct (k <? 2048) eqn:E2; [|destruct (k <? 65536) eqn:E3]];
    repeat constructor; unfold is_byte; lia.
Qed.
Lemma is_bytes_utf8 s : is_utf8 s -> is_bytes s.
Proof.
  intros (cs & H & ->). induction H; [constructor|]. cbn [flat_map].
  apply is_bytes_app. split; [now apply is_bytes_scalar|assumption].
Qed.

Ltac conjs := hnf; repeat match goal with |- _ /\ _ => split end; try assumption; try reflexivity;
  try assumption.
Ltac bytes_tac :=
  repeat first [rewrite is_bytes_app | rewrite Forall_app]; repeat split;
  auto using is_bytes_le, is_bytes_les, is_bytes_zeros, is_bytes_nil, is_bytes_utf8.
Ltac split_bytes := repeat match goal with
  | H : is_bytes (_ ++ _) |- _ => apply is_bytes_app in H as [? ?] end.
Ltac len_tac :=
  rewrite ?zlen_app, ?zlen_le, ?zlen_les, ?zlen_zeros, ?zlen_nil, ?zlen_cons in *; lia.
Ltac ranges := unfold u8, u16, u32, i16, i32, uint, sint in *;
  change (256 ^ Z.of_nat 1) with 256 in *; change (256 ^ Z.of_nat 2) with 65536 in *;
  change (256 ^ Z.of_nat 4) with 4294967296 in *.

Lemma seq_writes {A} (wf : A -> Prop) enc L l : writes wf enc L -> Forall wf l ->
  seq_l L l (flat_map enc l) /\ is_bytes (flat_map enc l).
Proof.
  intros HW H. induction H as [|x l Hx H [IH1 IH2]]; [split; [apply seq_l_nil|constructor]|].
  destruct (HW x Hx) as [H1 H2]. cbn [flat_map]. split; [now apply seq_l_cons|].
  apply is_bytes_app. auto.
Qed.
Lemma seq_written {A} (wf : A -> Prop) enc L l e : written wf enc L -> seq_l L l e -> is_bytes e ->
  Forall wf l /\ zlen (flat_map enc l) <= zlen e.
Proof.
  intros HW. revert e. induction l as [|x l IH]; intros e H Hb.
  - apply seq_l_nil_inv in H as ->. split; [constructor|reflexivity].
  - apply seq_l_cons_inv in H as (e1 & e2 & -> & H1 & H2). apply is_bytes_app in Hb as [B1 B2].
    destruct (HW _ _ H1 B1) as [W1 L1], (IH _ H2 B2) as [W2 L2]. cbn [flat_map].
    split; [now constructor|len_tac].
Qed.
Lemma opt_writes {A} (wf : A -> Prop) enc L o : writes wf enc L -> wf_opt wf o ->
  opt_l L o (enc_opt enc o) /\ is_bytes (enc_opt enc o).
Proof. intros HW H. destruct o; cbn in *; [now apply HW|split; [reflexivity|constructor]]. Qed.
Lemma opt_written {A} (wf : A -> Prop) enc L o e : written wf enc L -> opt_l L o e -> is_bytes e ->
  wf_opt wf o /\ zlen (enc_opt enc o) <= zlen e.
Proof.
  intros HW H Hb. destruct o; cbn in *; [now apply HW|]. subst. split; [exact I|reflexivity].
Qed.
Lemma all_Forall {A} (P : A -> Prop) l : all P l <-> Forall P l.
Proof.
  induction l as [|x l IH]; cbn; [split; auto|]. rewrite IH. split.
  - intros []. now constructor.
  - intro H. now inversion H.
Qed.

(** ** Scalars *)
Lemma uint_writes n : writes (uint n) (le n) (uint_l n).
Proof. intros x H. split; [now split|apply is_bytes_le]. Qed.
Lemma uint_written n : written (uint n) (le n) (uint_l n).
Proof. intros x e [H ->] _. now split. Qed.
Lemma sint_writes n : writes (sint n) (les n) (sint_l n).
Proof. intros x H. split; [now split|apply is_bytes_les]. Qed.
Lemma sint_written n : written (sint n) (les n) (sint_l n).
Proof. intros x e [H ->] _. now split. Qed.
Lemma string_writes : writes wf_string enc_string string_l.
Proof. intros x [H1 H2]. unfold enc_string. split; [conjs|bytes_tac]. Qed.
Lemma string_written : written wf_string enc_string string_l.
Proof. intros x e (H1 & H2 & ->) _. split; [now split|reflexivity]. Qed.
Lemma point_writes : writes wf_point enc_point point_l.
Proof. intros x [H1 H2]. unfold enc_point. split; [conjs|bytes_tac]. Qed.
Lemma point_written : written wf_point enc_point point_l.
Proof. intros x e (H1 & H2 & ->) _. split; [now split|reflexivity]. Qed.
Lemma size_writes : writes wf_size enc_size size_l.
Proof. intros x [H1 H2]. unfold enc_size. split; [conjs|bytes_tac]. Qed.
Lemma size_written : written wf_size enc_size size_l.
Proof. intros x e (H1 & H2 & ->) _. split; [now split|reflexivity]. Qed.
Lemma rect_writes : writes wf_rect enc_rect rect_l.
Proof.
  intros x [H1 H2]. unfold enc_rect. destruct (point_writes _ H1), (size_writes _ H2).
  split; [eexists _, _; eauto|bytes_tac].
Qed.
Lemma rect_written : written wf_rect enc_rect rect_l.
Proof.
  intros x e (e1 & e2 & H1 & H2 & ->) Hb. split_bytes.
  destruct (point_written _ _ H1), (size_written _ _ H2); try assumption.
  unfold enc_rect.
  split; [now split|len_tac].
Qed.
Lemma le_4_split a b : u16 a -> u16 b -> le 4 (a * 65536 + b) = le 2 b ++ le 2 a.
Proof.
  ranges. intros Ha Hb. cbn [le app].
  repeat (f_equal; try lia).
Qed.
Lemma fixed_writes : writes wf_fixed enc_fixed fixed_l.
Proof.
  intros x [H1 H2]. unfold enc_fixed. split; [|bytes_tac].
  split; [assumption|]. split; [assumption|]. now rewrite le_4_split.
Qed.
Lemma fixed_written : written wf_fixed enc_fixed fixed_l.
Proof. intros x e (H1 & H2 & ->) _. split; [now split|]. unfold enc_fixed. len_tac. Qed.
Lemma color_writes : writes wf_color enc_color color_l.
Proof. intros x H. split; [now split|exact H]. Qed.
Lemma color_written : written wf_color enc_color color_l.
Proof. intros x e [H ->] _. split; [exact H|reflexivity]. Qed.
Lemma rgb_writes : writes wf_rgb enc_rgb rgb_l.
Proof. intros x H. split; [now split|exact H]. Qed.
Lemma rgb_written : written wf_rgb enc_rgb rgb_l.
Proof. intros x e [H ->] _. split; [exact H|reflexivity]. Qed.

(** ** Codes *)
Lemma table_past {A} (rows : list A) unknown w : zlen rows <= w -> table rows unknown w = unknown w.
Proof. unfold table, zlen. intro H. apply nth_overflow. lia. Qed.

Ltac code_fwd f d :=
  let m := fresh in let H := fresh in let w := fresh "w" in let E := fresh in
  intros m H; unfold f; destruct m as [| | | | | | | | | | | | | | | | | | |w] ||
    destruct m as [| | | |w] || destruct m as [| | |w];
  try (split; [reflexivity|ranges; lia]); cbn in H;
  try (destruct (w =? 0) eqn:E; [assert (w = 0) as -> by lia; split; [reflexivity|ranges; lia]|]);
  (split; [unfold d; symmetry; apply table_past; cbn; lia|ranges; lia]).
Lemma blend_code m : wf_blend_mode m -> m = blend_mode_code (enc_blend_mode m) /\ u16 (enc_blend_mode m).
Proof. revert m. code_fwd enc_blend_mode blend_mode_code. Qed.
Lemma layer_type_ok m : wf_layer_type m -> m = layer_type_code (enc_layer_type m) /\ u16 (enc_layer_type m).
Proof. revert m. code_fwd enc_layer_type layer_type_code. Qed.
Lemma direction_ok m : wf_direction m -> m = direction_code (enc_direction m) /\ u8 (enc_direction m).
Proof. revert m. code_fwd enc_direction direction_code. Qed.
Lemma external_type_ok m : wf_external_type m ->
  m = external_file_code (enc_external_type m) /\ u8 (enc_external_type m).
Proof. revert m. code_fwd enc_external_type external_file_code. Qed.
Lemma depth_ok m : wf_depth m -> m = color_depth_code (enc_depth m) /\ u16 (enc_depth m).
Proof.
  destruct m; cbn; intro H; split; try reflexivity; try (ranges; lia).
  unfold color_depth_code.
  destruct (w =? 32) eqn:E1; [lia|]. destruct (w =? 16) eqn:E2; [lia|].
  destruct (w =? 8) eqn:E3; [lia|]. reflexivity.
Qed.

Lemma table_cases {A} (P : A -> Prop) rows unknown w : 0 <= w -> Forall P rows ->
  (zlen rows <= w -> P (unknown w)) -> P (table rows unknown w).
Proof.
  intros Hw HF HU. destruct (Z_lt_ge_dec w (zlen rows)) as [H|H].
  - unfold table. rewrite Forall_forall in HF. apply HF, nth_In. unfold zlen in H. lia.
  - rewrite table_past by lia. apply HU. lia.
Qed.
Ltac code_bwd P d := let H := fresh in intro H; unfold d; apply (table_cases P); [ranges; lia|repeat constructor; cbn; auto|];
  cbn; intro; ranges; lia.
Lemma blend_code_wf w : u16 w -> wf_blend_mode (blend_mode_code w).
Proof. code_bwd wf_blend_mode blend_mode_code. Qed.
Lemma layer_type_wf w : u16 w -> wf_layer_type (layer_type_code w).
Proof. code_bwd wf_layer_type layer_type_code. Qed.
Lemma direction_wf w : u8 w -> wf_direction (direction_code w).
Proof. code_bwd wf_direction direction_code. Qed.
Lemma external_type_wf w : u8 w -> wf_external_type (external_file_code w).
Proof. code_bwd wf_external_type external_file_code. Qed.
Lemma depth_wf w : u16 w -> wf_depth (color_depth_code w).
Proof.
  intro H. unfold color_depth_code.
  destruct (w =? 32) eqn:E1; [exact I|]. destruct (w =? 16) eqn:E2; [exact I|].
  destruct (w =? 8) eqn:E3; [exact I|]. cbn. ranges. lia.
Qed.
Lemma layer_type_tilemap w : u16 w -> layer_type_code w = LTilemap <-> w = 2.
Proof.
  intro H. split; [|now intros ->]. ranges.
  destruct (Z_lt_ge_dec w 3).
  - assert (C : w = 0 \/ w = 1 \/ w = 2) by lia. destruct C as [->|[->| ->]]; intro E; (reflexivity || discriminate E).
  - unfold layer_type_code. rewrite table_past by (cbn; lia). discriminate.
Qed.

(** ** Header *)
Ltac lens := unfold enc_string, enc_blob in *;
  repeat (rewrite ?zlen_app, ?zlen_le, ?zlen_les, ?zlen_zeros, ?zlen_nil, ?zlen_cons in *); lia.
Lemma header_writes : writes wf_header enc_header header_l.
Proof.
  intros x H. unfold wf_header in H. decompose [and] H; clear H. unfold enc_header. split; [|bytes_tac].
  destruct (depth_ok (h_color_depth x)) as [D1 D2]; [assumption|].
  exists (enc_depth (h_color_depth x)), (zeros 3), (zeros 84). conjs.
Qed.
Lemma header_written : written wf_header enc_header header_l.
Proof.
  intros x e (depth & i1 & i2 & H) Hb. decompose [and] H; clear H. subst e. split.
  - conjs. match goal with H : h_color_depth x = _ |- _ => rewrite H end. now apply depth_wf.
  - unfold enc_header. change [0; 0; 0; 0; 0; 0; 0; 0] with (zeros 8). lens.
Qed.

(** ** Chunk payloads *)
Ltac start_w x H := intros x H; hnf in H; decompose [and] H; clear H.
Ltac start_b x e H Hb := intros x e H Hb; hnf in H;
  repeat match goal with H : exists _, _ |- _ => destruct H as [? H] end;
  decompose [and] H; clear H; subst e; split_bytes.
Ltac use_w lem := match goal with H : ?P ?y |- _ =>
  let A := fresh "W" in let B := fresh "W" in destruct (lem y H) as [A B]; clear H end.
Ltac use_b lem := match goal with H : ?L ?y ?e, Hb : is_bytes ?e |- _ =>
  let A := fresh "W" in let B := fresh "W" in destruct (lem y e H Hb) as [A B]; clear H end.
Ltac seq_w lem := match goal with H : Forall _ ?l |- _ =>
  let A := fresh "W" in let B := fresh "W" in destruct (seq_writes _ _ _ l lem H) as [A B]; clear H end.
Ltac seq_b lem := match goal with H : seq_l _ ?l ?e, Hb : is_bytes ?e |- _ =>
  let A := fresh "W" in let B := fresh "W" in destruct (seq_written _ _ _ l e lem H Hb) as [A B]; clear H end.
Ltac opt_w lem := match goal with H : wf_opt _ ?o |- _ =>
  let A := fresh "W" in let B := fresh "W" in destruct (opt_writes _ _ _ o lem H) as [A B]; clear H end.
Ltac opt_b lem := match goal with H : opt_l _ ?o ?e, Hb : is_bytes ?e |- _ =>
  let A := fresh "W" in let B := fresh "W" in destruct (opt_written _ _ _ o e lem H Hb) as [A B]; clear H end.

Lemma packet_writes : writes wf_packet enc_packet packet_l.
Proof.
  start_w x H. unfold enc_packet. seq_w rgb_writes. split; [|bytes_tac].
  exists (zlen (pk_colors x) mod 256), (flat_map enc_rgb (pk_colors x)). conjs.
  - ranges. lia.
  - destruct (_ =? 0) eqn:E; lia.
Qed.
Lemma packet_written : written wf_packet enc_packet packet_l.
Proof.
  start_b x e H Hb. seq_b rgb_written. split.
  - conjs; ranges; destruct (_ =? 0) eqn:E; lia.
  - unfold enc_packet. lens.
Qed.
Lemma old_palette_writes : writes wf_old_palette enc_old_palette old_palette_l.
Proof.
  start_w x H. unfold enc_old_palette. seq_w packet_writes. split; [|bytes_tac].
  eexists. conjs.
Qed.
Lemma old_palette_written : written wf_old_palette enc_old_palette old_palette_l.
Proof. start_b x e H Hb. seq_b packet_written. split; [conjs|unfold enc_old_palette; lens]. Qed.

Lemma palette_entry_writes : writes wf_palette_entry enc_palette_entry palette_entry_l.
Proof.
  start_w x H. unfold enc_palette_entry. opt_w string_writes. use_w color_writes.
  split; [|bytes_tac]. eexists _, _, _. conjs; try eassumption.
  - destruct (pe_name x); ranges; lia.
  - destruct (pe_name x); cbn; split; auto; try discriminate; intros [].
Qed.
Lemma palette_entry_written : written wf_palette_entry enc_palette_entry palette_entry_l.
Proof.
  start_b x e H Hb. opt_b string_written. use_b color_written.
  split; [conjs|unfold enc_palette_entry; lens].
Qed.
Lemma palette_writes : writes wf_palette enc_palette palette_l.
Proof.
  start_w x H. unfold enc_palette. seq_w palette_entry_writes. split; [|bytes_tac].
  exists (zeros 8). eexists. conjs.
Qed.
Lemma palette_written : written wf_palette enc_palette palette_l.
Proof. start_b x e H Hb. seq_b palette_entry_written. split; [conjs|unfold enc_palette; lens]. Qed.

Lemma layer_writes : writes wf_layer enc_layer layer_l.
Proof.
  intros x (H1 & H2 & H3 & H4 & H5 & H6 & H7 & H8 & H9). unfold enc_layer.
  destruct (string_writes _ H6) as [S1 S2], (opt_writes _ _ _ _ (uint_writes 4) H7) as [T1 T2].
  destruct (layer_type_ok _ H2) as [L1 L2], (blend_code _ H4) as [B1 B2].
  split; [|bytes_tac].
  exists (lc_flags x), (enc_layer_type (lc_layer_type x)), 0, 0, (enc_blend_mode (lc_blend_mode x)),
    (zeros 3), (enc_string (lc_name x)), (enc_opt (le 4) (lc_tileset_index x)).
  conjs; try (ranges; lia).
  rewrite H8. rewrite L1 at 1. now apply layer_type_tilemap.
Qed.
Lemma layer_written : written wf_layer enc_layer layer_l.
Proof.
  intros x e (flags & ty & dw & dh & bm & ig & e1 & e2 & H1 & H2 & H3 & H4 & H5 & H6 & H7 & H8 & H9 &
    H10 & H11 & H12 & H13 & H14 & H15 & ->) Hb. split_bytes.
  use_b string_written. opt_b (uint_written 4). split.
  - conjs; try (ranges; lia).
    + rewrite H12. now apply layer_type_wf.
    + rewrite H13. now apply blend_code_wf.
    + rewrite H14, H12. symmetry. now apply layer_type_tilemap.
  - unfold enc_layer. lens.
Qed.

Lemma content_writes x : wf_content x ->
  cel_content_l (cel_code x) x (enc_content x) /\ is_bytes (enc_content x) /\ u16 (cel_code x).
Proof.
  destruct x as [im|fr|w h bits id xf yf df d|w d]; intro H; hnf in H; cbn [cel_code enc_content].
  - decompose [and] H; clear H. split; [|split]; [|bytes_tac|destruct (im_compressed im); ranges; lia].
    conjs. destruct (im_compressed im); auto.
  - split; [|split]; [|bytes_tac|ranges; lia]. conjs. exists []. now rewrite app_nil_r.
  - decompose [and] H; clear H. split; [|split]; [|bytes_tac|ranges; lia]. conjs.
    exists (zeros 10). conjs.
  - destruct H as [H Hd]. split; [|split]; [|assumption|destruct (w =? 0) eqn:E; ranges; lia].
    conjs. destruct (w =? 0) eqn:E; lia.
Qed.
Lemma content_written ty x e : u16 ty -> cel_content_l ty x e -> is_bytes e ->
  wf_content x /\ zlen (enc_content x) <= zlen e.
Proof.
  intro Ht. destruct x as [im|fr|w h bits id xf yf df d|w d]; intros H Hb; hnf in H.
  - decompose [and] H; clear H. subst e. split_bytes. split; [conjs|cbn; lens].
  - destruct H as (H1 & H2 & ig & ->). split; [assumption|]. cbn [enc_content].
    pose proof (zlen_nonneg ig). lens.
  - destruct H as (H1 & H2 & H3 & H4 & H5 & H6 & H7 & H8 & ig & H9 & ->). split_bytes.
    split; [conjs|cbn [enc_content]; lens].
  - destruct H as [-> H]. split; [|reflexivity]. split; [|assumption]. ranges. lia.
Qed.
Lemma cel_writes : writes wf_cel enc_cel cel_l.
Proof.
  start_w x H. unfold enc_cel.
  destruct (content_writes (cc_content x)) as (W1 & W2 & W3); [assumption|].
  split; [|bytes_tac]. exists (cel_code (cc_content x)), (zeros 5), (enc_content (cc_content x)). conjs.
Qed.
Lemma cel_written : written wf_cel enc_cel cel_l.
Proof.
  start_b x e H Hb.
  match goal with H : cel_content_l ?ty _ ?e, Ht : u16 ?ty |- _ =>
    destruct (content_written ty _ e Ht H) as [W1 W2]; [assumption|] end.
  split; [conjs|unfold enc_cel; lens].
Qed.

Lemma cel_extra_writes : writes wf_cel_extra enc_cel_extra cel_extra_l.
Proof.
  intros x (H1 & H2 & H3 & H4 & H5 & H6). unfold enc_cel_extra.
  destruct (fixed_writes _ H2), (fixed_writes _ H3), (fixed_writes _ H4), (fixed_writes _ H5).
  split; [|bytes_tac]. eexists (ce_flags x), _, _, _, _. conjs; try eassumption; try reflexivity;
    ranges; lia.
Qed.
Lemma cel_extra_written : written wf_cel_extra enc_cel_extra cel_extra_l.
Proof.
  start_b x e H Hb. do 4 use_b fixed_written. split; [conjs; lia|unfold enc_cel_extra; lens].
Qed.

Lemma color_profile_writes : writes wf_color_profile enc_color_profile color_profile_l.
Proof.
  intros x [H1 H2]. unfold enc_color_profile.
  set (ty := match cp_profile x with CPNone => 0 | CPSrgb => 1 | CPEmbeddedICC _ => 2
        | CPUnknown w => if w =? 0 then 3 else w end).
  set (icc := match cp_profile x with CPEmbeddedICC data => le 4 (zlen data) ++ data | _ => [] end).
  assert (T : u16 ty).
  { subst ty. destruct (cp_profile x) as [| | |w]; try (ranges; lia).
    destruct (w =? 0) eqn:E; ranges; lia. }
  assert (B : is_bytes icc) by (subst icc; destruct (cp_profile x); bytes_tac; apply H2).
  assert (M : match cp_profile x with
    | CPNone => ty = 0 /\ icc = [] | CPSrgb => ty = 1 /\ icc = []
    | CPEmbeddedICC data => ty = 2 /\ u32 (zlen data) /\ icc = le 4 (zlen data) ++ data
    | CPUnknown w => (ty = 3 /\ w = 0 \/ 4 <= ty /\ w = ty) /\ icc = []
    end).
  { subst ty icc. destruct (cp_profile x) as [| | |w]; try now split.
    split; [|reflexivity]. destruct (w =? 0) eqn:E; lia. }
  destruct (cp_fixed_gamma x) as [g|] eqn:G; cbn in H1.
  - destruct (fixed_writes _ H1) as [F1 F2]. split; [|bytes_tac].
    exists ty, 1, g, (enc_fixed g), (zeros 8), icc. conjs; try (ranges; lia).
  - split; [|bytes_tac]. exists ty, 0, (Build_fixedp 0 0), (zeros 4), (zeros 8), icc.
    conjs; try (ranges; cbn; lia). conjs; ranges; cbn; lia.
Qed.
Lemma color_profile_written : written wf_color_profile enc_color_profile color_profile_l.
Proof.
  intros x e (ty & flags & g & e1 & ig & icc & H1 & H2 & H3 & H4 & H5 & H6 & ->) Hb. split_bytes.
  assert (E1 : zlen e1 = 4) by (destruct H3 as (_ & _ & ->); now rewrite zlen_le).
  use_b fixed_written. split.
  - split.
    + rewrite H5. now destruct (Z.testbit flags 0).
    + destruct (cp_profile x); auto.
      * destruct H6 as (? & ? & ->). split_bytes. auto.
      * ranges. lia.
  - unfold enc_color_profile. assert (zlen match cp_profile x with
       CPEmbeddedICC data => le 4 (zlen data) ++ data | _ => [] end <= zlen icc).
    { destruct (cp_profile x); try (rewrite zlen_nil; apply zlen_nonneg).
      destruct H6 as (? & ? & ->). reflexivity. }
    destruct (cp_fixed_gamma x); unfold enc_fixed; lens.
Qed.

Lemma external_file_writes : writes wf_external_file enc_external_file external_file_l.
Proof.
  start_w x H. unfold enc_external_file. use_w string_writes.
  destruct (external_type_ok (ef_file_type x)) as [E1 E2]; [assumption|]. split; [|bytes_tac].
  exists (enc_external_type (ef_file_type x)), (zeros 7). eexists. conjs; eauto.
Qed.
Lemma external_file_written : written wf_external_file enc_external_file external_file_l.
Proof.
  start_b x e H Hb. use_b string_written. split; [|unfold enc_external_file; lens]. conjs.
  match goal with H : ef_file_type x = _ |- _ => rewrite H end. now apply external_type_wf.
Qed.
Lemma external_files_writes : writes wf_external_files enc_external_files external_files_l.
Proof.
  start_w x H. unfold enc_external_files. seq_w external_file_writes. split; [|bytes_tac].
  exists (zeros 8). eexists. conjs.
Qed.
Lemma external_files_written : written wf_external_files enc_external_files external_files_l.
Proof.
  start_b x e H Hb. seq_b external_file_written. split; [conjs|unfold enc_external_files; lens].
Qed.

Lemma mask_writes : writes wf_mask enc_mask mask_l.
Proof.
  start_w x H. unfold enc_mask. use_w string_writes. split; [|bytes_tac].
  exists (zeros 8). eexists. conjs; eauto.
Qed.
Lemma mask_written : written wf_mask enc_mask mask_l.
Proof. start_b x e H Hb. use_b string_written. split; [conjs|unfold enc_mask; lens]. Qed.

Lemma nine_patch_writes : writes wf_nine_patch enc_nine_patch nine_patch_l.
Proof. start_w x H. unfold enc_nine_patch. split; [conjs|bytes_tac]. Qed.
Lemma nine_patch_written : written wf_nine_patch enc_nine_patch nine_patch_l.
Proof. start_b x e H Hb. split; [conjs|reflexivity]. Qed.
Lemma pivot_writes : writes wf_pivot enc_pivot pivot_l.
Proof. start_w x H. unfold enc_pivot. split; [conjs|bytes_tac]. Qed.
Lemma pivot_written : written wf_pivot enc_pivot pivot_l.
Proof. start_b x e H Hb. split; [conjs|reflexivity]. Qed.

Lemma testbit_0 z : 0 <= z -> Z.testbit z 0 = true <-> z mod 2 = 1.
Proof. intro H. rewrite <- (Z.bit0_mod z). destruct (Z.testbit z 0); cbn; split; congruence. Qed.
Lemma testbit_1 z : 0 <= z -> Z.testbit z 1 = true <-> z / 2 mod 2 = 1.
Proof.
  intro H. rewrite <- testbit_0 by lia. change 2 with (2 ^ 1). rewrite Z.div_pow2_bits by lia.
  reflexivity.
Qed.
Lemma testbit_2 z : 0 <= z -> Z.testbit z 2 = true <-> z / 4 mod 2 = 1.
Proof.
  intro H. rewrite <- testbit_0 by lia. change 4 with (2 ^ 2). rewrite Z.div_pow2_bits by lia.
  reflexivity.
Qed.

Lemma slice_key_writes f : 0 <= f < 4 ->
  writes (wf_slice_key f) enc_slice_key (slice_key_l f).
Proof.
  intros Hf x (H1 & H2 & H3 & H4 & H5 & H6 & H7 & H8 & H9). unfold enc_slice_key.
  destruct (opt_writes _ _ _ _ nine_patch_writes H6), (opt_writes _ _ _ _ pivot_writes H8).
  split; [|bytes_tac]. eexists _, _. conjs; try eassumption.
  - rewrite H7, testbit_0 by lia. lia.
  - rewrite H9, testbit_1 by lia. lia.
Qed.
Lemma slice_key_written f : 0 <= f ->
  written (wf_slice_key (f mod 4)) enc_slice_key (slice_key_l f).
Proof.
  intros Hf x e (e1 & e2 & H1 & H2 & H3 & H4 & H5 & H6 & H7 & H8 & H9 & ->) Hb. split_bytes.
  opt_b nine_patch_written. opt_b pivot_written. split; [|unfold enc_slice_key; lens].
  conjs.
  - rewrite H7, testbit_0 by lia. lia.
  - rewrite H9, testbit_1 by lia. lia.
Qed.
Lemma slice_writes : writes wf_slice enc_slice slice_l.
Proof.
  intros x (H1 & H2 & H3 & H4 & H5). unfold enc_slice. use_w string_writes.
  destruct (seq_writes _ _ _ _ (slice_key_writes _ H2) H4). split; [|bytes_tac].
  exists (sc_flags x), (zeros 4). eexists _, _. conjs; try eassumption; ranges; try lia.
Qed.
Lemma slice_written : written wf_slice enc_slice slice_l.
Proof.
  intros x e (f & ig & e1 & e2 & H1 & H2 & H3 & H4 & H5 & H6 & H7 & ->) Hb. split_bytes.
  use_b string_written. assert (F : 0 <= f) by (ranges; lia). seq_b (slice_key_written f F).
  split; [|unfold enc_slice; lens]. rewrite <- H6 in *. conjs; lia.
Qed.

Lemma tag_writes : writes wf_tag enc_tag tag_l.
Proof.
  start_w x H. unfold enc_tag. use_w string_writes.
  destruct (direction_ok (tg_animation_direction x)) as [E1 E2]; [assumption|]. split; [|bytes_tac].
  exists (enc_direction (tg_animation_direction x)), (zeros 6), 0. eexists. conjs; eauto.
  ranges; lia.
Qed.
Lemma tag_written : written wf_tag enc_tag tag_l.
Proof.
  start_b x e H Hb. use_b string_written. split; [|unfold enc_tag; lens]. conjs.
  match goal with H : tg_animation_direction x = _ |- _ => rewrite H end. now apply direction_wf.
Qed.
Lemma tags_writes : writes wf_tags enc_tags tags_l.
Proof.
  start_w x H. unfold enc_tags. seq_w tag_writes. split; [|bytes_tac].
  exists (zeros 8). eexists. conjs.
Qed.
Lemma tags_written : written wf_tags enc_tags tags_l.
Proof. start_b x e H Hb. seq_b tag_written. split; [conjs|unfold enc_tags; lens]. Qed.

Lemma tileset_external_writes : writes wf_tileset_external enc_tileset_external tileset_external_l.
Proof. start_w x H. unfold enc_tileset_external. split; [conjs|bytes_tac]. Qed.
Lemma tileset_external_written : written wf_tileset_external enc_tileset_external tileset_external_l.
Proof. start_b x e H Hb. split; [conjs|reflexivity]. Qed.
Lemma blob_writes : writes wf_blob enc_blob blob_l.
Proof. start_w x H. unfold enc_blob. split; [conjs|bytes_tac]. Qed.
Lemma blob_written : written wf_blob enc_blob blob_l.
Proof. start_b x e H Hb. split; [conjs|reflexivity]. Qed.
Lemma tileset_writes : writes wf_tileset enc_tileset tileset_l.
Proof.
  intros x (H1 & H2 & H3 & H4 & H5 & H6 & H7 & H8 & H9 & H10 & H11). unfold enc_tileset.
  use_w string_writes.
  destruct (opt_writes _ _ _ _ tileset_external_writes H8), (opt_writes _ _ _ _ blob_writes H10).
  split; [|bytes_tac]. exists (ts_flags x), (zeros 14). eexists _, _, _.
  conjs; try eassumption; try (ranges; lia); try reflexivity.
  - rewrite H9, testbit_0 by lia. reflexivity.
  - rewrite H11, testbit_1 by lia. reflexivity.
Qed.
Lemma tileset_written : written wf_tileset enc_tileset tileset_l.
Proof.
  intros x e (f & ig & e1 & e2 & e3 & H1 & H2 & H3 & H4 & H5 & H6 & H7 & H8 & H9 & H10 & H11 & H12 &
    H13 & ->) Hb. split_bytes.
  use_b string_written. opt_b tileset_external_written. opt_b blob_written.
  split; [|unfold enc_tileset; lens]. assert (F : 0 <= f) by (ranges; lia).
  conjs; try lia.
  - rewrite H11, H3, testbit_0 by lia. lia.
  - rewrite H13, H3, testbit_1 by lia. lia.
Qed.
