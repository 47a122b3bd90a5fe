(** The writer and the reader of whole files. *)
From Verif.Model Require Import RawFile File.
From Verif.Spec Require Import Utf8Spec Encode.
From Verif.Proofs Require Import ParseLib Utf8Facts ChunkFacts UserDataFacts RawFacts EncodeFacts.
Local Ltac Zify.zify_post_hook ::= Z.div_mod_to_equations.

(** ** User data *)
Lemma bool_writes : writes (fun _ => True) enc_bool bool_l.
Proof.
  intros [] _; (split; [|repeat constructor; unfold is_byte; lia]).
  - exists 1. conjs. ranges; lia.
  - exists 0. conjs. ranges; lia.
Qed.
Lemma bool_written : written (fun _ => True) enc_bool bool_l.
Proof. intros b e (x & Hx & -> & ->) _. split; [exact I|]. rewrite zlen_le. now destruct (_ =? 0). Qed.
Lemma bools_wf l : Forall (fun _ : bool => True) l.
Proof. apply Forall_forall. auto. Qed.

Definition ok_value v := wf_value v -> value_l v (enc_value v) /\ is_bytes (enc_value v).
Definition ok_vector v := wf_vector v -> vector_l v (enc_vector v) /\ is_bytes (enc_vector v).
Definition ok_map v := wf_map v -> map_l v (enc_map v) /\ is_bytes (enc_map v).
Definition ok_prop v := wf_prop v -> prop_l v (enc_prop v) /\ is_bytes (enc_prop v).

Lemma seq_ok {A} (wf : A -> Prop) enc L l :
  Forall (fun x => wf x -> L x (enc x) /\ is_bytes (enc x)) l -> Forall wf l ->
  seq_l L l (flat_map enc l) /\ is_bytes (flat_map enc l).
Proof.
  intros HW H. induction H as [|x l Hx H IH]; [split; [apply seq_l_nil|constructor]|].
  inversion HW as [|x' l' W1 W2]; subst. destruct (W1 Hx) as [H1 H2], (IH W2) as [H3 H4].
  cbn [flat_map]. split; [now apply seq_l_cons|]. apply is_bytes_app. auto.
Qed.

Ltac simple_value lem := let H := fresh in intro H; destruct (lem _ H); split;
  [constructor; assumption|bytes_tac].
Ltac simple_vector lem := let H1 := fresh in let H2 := fresh in intros [H1 H2];
  apply all_Forall in H2; destruct (seq_writes _ _ _ _ lem H2); split;
  [constructor; assumption|bytes_tac].

Lemma value_ok : forall v, ok_value v
with vector_ok : forall v, ok_vector v
with map_ok : forall v, ok_map v
with prop_ok : forall v, ok_prop v.
Proof.
  - intros []; unfold ok_value; cbn [wf_value enc_value].
    + intros _. destruct (bool_writes b I). split; [constructor; assumption|bytes_tac].
    + simple_value (sint_writes 1).
    + simple_value (uint_writes 1).
    + simple_value (sint_writes 2).
    + simple_value (uint_writes 2).
    + simple_value (sint_writes 4).
    + simple_value (uint_writes 4).
    + simple_value (sint_writes 8).
    + simple_value (uint_writes 8).
    + simple_value fixed_writes.
    + simple_value (uint_writes 4).
    + simple_value (uint_writes 8).
    + simple_value string_writes.
    + simple_value point_writes.
    + simple_value size_writes.
    + simple_value rect_writes.
    + simple_value vector_ok.
    + intros [].
    + simple_value map_ok.
    + simple_value (uint_writes 16).
  - intros []; unfold ok_vector; cbn [wf_vector enc_vector].
    + intros [H1 H2]. assert (F : Forall ok_value l) by (clear - value_ok; induction l; constructor; auto).
      apply all_Forall in H2. destruct (seq_ok _ _ _ _ F H2) as [H3 H4]. apply values_seq in H3.
      split; [constructor; assumption|bytes_tac].
    + intro H1. destruct (seq_writes _ _ _ _ bool_writes (bools_wf l)).
      split; [constructor; assumption|bytes_tac].
    + simple_vector (sint_writes 1).
    + simple_vector (uint_writes 1).
    + simple_vector (sint_writes 2).
    + simple_vector (uint_writes 2).
    + simple_vector (sint_writes 4).
    + simple_vector (uint_writes 4).
    + simple_vector (sint_writes 8).
    + simple_vector (uint_writes 8).
    + simple_vector fixed_writes.
    + simple_vector (uint_writes 4).
    + simple_vector (uint_writes 8).
    + simple_vector string_writes.
    + simple_vector point_writes.
    + simple_vector size_writes.
    + simple_vector rect_writes.
    + intros [H1 H2]. assert (F : Forall ok_vector l) by (clear - vector_ok; induction l; constructor; auto).
      apply all_Forall in H2. destruct (seq_ok _ _ _ _ F H2) as [H3 H4]. apply vectors_seq in H3.
      split; [constructor; assumption|bytes_tac].
    + intros [H1 H2]. assert (F : Forall ok_map l) by (clear - map_ok; induction l; constructor; auto).
      apply all_Forall in H2. destruct (seq_ok _ _ _ _ F H2) as [H3 H4]. apply maps_seq in H3.
      split; [constructor; assumption|bytes_tac].
    + simple_vector (uint_writes 16).
  - intros [l id] (H1 & H2 & H3). cbn [enc_map].
    assert (F : Forall ok_prop l) by (clear - prop_ok; induction l; constructor; auto).
    apply all_Forall in H3. destruct (seq_ok _ _ _ _ F H3) as [H4 H5]. apply props_seq in H4.
    split; [constructor; assumption|bytes_tac].
  - intros [name v] [H1 H2]. cbn [enc_prop]. destruct (string_writes _ H1), (value_ok v H2).
    split; [|bytes_tac]. eexists _, _. conjs; eassumption.
Qed.

Ltac written_simple lem := let x := fresh in let e := fresh in let H := fresh in let Hb := fresh in
  intros x e H Hb; split_bytes;
  let A := fresh in let B := fresh in edestruct (lem x e H) as [A B]; [assumption|];
  split; [exact A|cbn [enc_value]; lens].
Ltac written_vector lem := let x := fresh in let e := fresh in let Hn := fresh in
  let H := fresh in let Hb := fresh in
  intros x e Hn H Hb; split_bytes;
  let A := fresh in let B := fresh in
  edestruct (seq_written _ _ _ x e lem H) as [A B]; [assumption|]; apply all_Forall in A;
  split; [split; assumption|cbn [enc_vector]; lens].
Lemma user_data_written :
  (forall v e, value_l v e -> is_bytes e -> wf_value v /\ zlen (enc_value v) <= zlen e) /\
  (forall v e, vector_l v e -> is_bytes e -> wf_vector v /\ zlen (enc_vector v) <= zlen e) /\
  (forall v e, map_l v e -> is_bytes e -> wf_map v /\ zlen (enc_map v) <= zlen e) /\
  (forall l e, props_l l e -> is_bytes e -> all wf_prop l /\ zlen (flat_map enc_prop l) <= zlen e) /\
  (forall l e, values_l l e -> is_bytes e -> all wf_value l /\ zlen (flat_map enc_value l) <= zlen e) /\
  (forall l e, vectors_l l e -> is_bytes e -> all wf_vector l /\ zlen (flat_map enc_vector l) <= zlen e) /\
  (forall l e, maps_l l e -> is_bytes e -> all wf_map l /\ zlen (flat_map enc_map l) <= zlen e).
Proof.
  apply user_data_ind.
  - written_simple bool_written.
  - written_simple (sint_written 1).
  - written_simple (uint_written 1).
  - written_simple (sint_written 2).
  - written_simple (uint_written 2).
  - written_simple (sint_written 4).
  - written_simple (uint_written 4).
  - written_simple (sint_written 8).
  - written_simple (uint_written 8).
  - written_simple fixed_written.
  - written_simple (uint_written 4).
  - written_simple (uint_written 8).
  - written_simple string_written.
  - written_simple point_written.
  - written_simple size_written.
  - written_simple rect_written.
  - intros v e _ IH Hb. split_bytes. destruct IH as [A B]; [assumption|].
    split; [exact A|cbn [enc_value]; lens].
  - intros v e _ IH Hb. split_bytes. destruct IH as [A B]; [assumption|].
    split; [exact A|cbn [enc_value]; lens].
  - written_simple (uint_written 16).
  - intros l e Hn _ IH Hb. split_bytes. destruct IH as [A B]; [assumption|].
    split; [split; assumption|cbn [enc_vector]; lens].
  - intros l e Hn H Hb. split_bytes. edestruct (seq_written _ _ _ l e bool_written H) as [A B]; [assumption|].
    split; [assumption|cbn [enc_vector]; lens].
  - written_vector (sint_written 1).
  - written_vector (uint_written 1).
  - written_vector (sint_written 2).
  - written_vector (uint_written 2).
  - written_vector (sint_written 4).
  - written_vector (uint_written 4).
  - written_vector (sint_written 8).
  - written_vector (uint_written 8).
  - written_vector fixed_written.
  - written_vector (uint_written 4).
  - written_vector (uint_written 8).
  - written_vector string_written.
  - written_vector point_written.
  - written_vector size_written.
  - written_vector rect_written.
  - intros l e Hn _ IH Hb. split_bytes. destruct IH as [A B]; [assumption|].
    split; [split; assumption|cbn [enc_vector]; lens].
  - intros l e Hn _ IH Hb. split_bytes. destruct IH as [A B]; [assumption|].
    split; [split; assumption|cbn [enc_vector]; lens].
  - written_vector (uint_written 16).
  - intros id l e H1 H2 _ IH Hb. split_bytes. destruct IH as [A B]; [assumption|].
    split; [split; [|split]; assumption|cbn [enc_map]; lens].
  - intros _. split; [exact I|reflexivity].
  - intros name v l e1 e2 e3 Hs _ IHv _ IHl Hb. split_bytes.
    destruct (string_written _ _ Hs) as [A B]; [assumption|].
    destruct IHv as [A2 B2]; [assumption|]. destruct IHl as [A3 B3]; [assumption|].
    split; [repeat (split; try assumption)|cbn [flat_map enc_prop]; lens].
  - intros _. split; [exact I|reflexivity].
  - intros v l e1 e2 _ IHv _ IHl Hb. split_bytes.
    destruct IHv as [A2 B2]; [assumption|]. destruct IHl as [A3 B3]; [assumption|].
    split; [split; assumption|cbn [flat_map]; lens].
  - intros _. split; [exact I|reflexivity].
  - intros v l e1 e2 _ IHv _ IHl Hb. split_bytes.
    destruct IHv as [A2 B2]; [assumption|]. destruct IHl as [A3 B3]; [assumption|].
    split; [split; assumption|cbn [flat_map]; lens].
  - intros _. split; [exact I|reflexivity].
  - intros v l e1 e2 _ IHv _ IHl Hb. split_bytes.
    destruct IHv as [A2 B2]; [assumption|]. destruct IHl as [A3 B3]; [assumption|].
    split; [split; assumption|cbn [flat_map]; lens].
Qed.

Section WithError.
Variable map_error : bytes -> Z -> nom_err -> Prop.

Lemma area_writes : writes wf_area enc_area (properties_area_l map_error).
Proof.
  intros [[rest ms]|e] H; [|destruct H]. destruct H as (H1 & H2 & H3 & H4).
  assert (M : maps_l ms (flat_map enc_map ms) /\ is_bytes (flat_map enc_map ms)).
  { rewrite maps_seq. apply (seq_writes wf_map enc_map map_l); [exact map_ok|assumption]. }
  destruct M as [M1 M2]. cbn [enc_area]. split; [|bytes_tac].
  exists (zlen ms), (flat_map enc_map ms ++ rest). conjs.
  exists (flat_map enc_map ms). conjs.
Qed.
Lemma area_written rest ms e : properties_area_l map_error (inl (rest, ms)) e -> is_bytes e ->
  wf_area (inl (rest, ms)) /\ zlen (enc_area (inl (rest, ms))) <= zlen e.
Proof.
  intros (n & area & H1 & H2 & (e' & -> & H4 & H5) & ->) Hb. split_bytes.
  destruct user_data_written as (_ & _ & _ & _ & _ & _ & W).
  destruct (W _ _ H5) as [A B]; [assumption|].
  pose proof (zlen_nonneg (flat_map enc_map ms ++ rest)).
  split; [|cbn [enc_area]; lens]. conjs.
  - now apply all_Forall.
  - now rewrite H4.
  - ranges. rewrite zlen_app in *. lia.
Qed.

Lemma user_data_writes : writes wf_user_data enc_user_data (user_data_l map_error).
Proof.
  intros x (H1 & H2 & H3). unfold enc_user_data.
  destruct (opt_writes _ _ _ _ string_writes H1), (opt_writes _ _ _ _ color_writes H2),
    (opt_writes _ _ _ _ area_writes H3).
  split; [|bytes_tac].
  eexists _, _, _, _. conjs; try eassumption; try reflexivity.
  - destruct (ud_text x), (ud_color x), (ud_properties_maps x); ranges; lia.
  - rewrite testbit_0 by (destruct (ud_text x), (ud_color x), (ud_properties_maps x); lia).
    destruct (ud_text x), (ud_color x), (ud_properties_maps x); cbn; split; auto; discriminate || intros [].
  - rewrite testbit_1 by (destruct (ud_text x), (ud_color x), (ud_properties_maps x); lia).
    destruct (ud_text x), (ud_color x), (ud_properties_maps x); cbn; split; auto; discriminate || intros [].
  - rewrite testbit_2 by (destruct (ud_text x), (ud_color x), (ud_properties_maps x); lia).
    destruct (ud_text x), (ud_color x), (ud_properties_maps x); cbn; split; auto; discriminate || intros [].
Qed.
Lemma user_data_chunk_written u e : user_data_l map_error u e -> is_bytes e ->
  (forall err, ud_properties_maps u <> Some (inr err)) ->
  wf_user_data u /\ zlen (enc_user_data u) <= zlen e.
Proof.
  intros (f & e1 & e2 & e3 & H1 & H2 & H3 & H4 & H5 & H6 & H7 & ->) Hb Hn. split_bytes.
  opt_b string_written. opt_b color_written.
  assert (A : wf_opt wf_area (ud_properties_maps u) /\
              zlen (enc_opt enc_area (ud_properties_maps u)) <= zlen e3).
  { destruct (ud_properties_maps u) as [[[rest ms]|err]|]; cbn in H6.
    - now apply area_written.
    - now destruct (Hn err).
    - subst. split; [exact I|reflexivity]. }
  destruct A. split; [conjs|unfold enc_user_data; lens].
Qed.

(** ** Chunks *)
Lemma enc_chunk_len x : zlen (enc_chunk x) = zlen (enc_payload x) + 6.
Proof. unfold enc_chunk, encode_chunk. lens. Qed.

Lemma prefix_writes {A} (wf : A -> Prop) enc L x : writes wf enc L -> wf x ->
  prefix_l L x (enc x) /\ is_bytes (enc x).
Proof.
  intros HW H. destruct (HW x H) as [H1 H2]. split; [|exact H2].
  exists (enc x), []. rewrite app_nil_r. auto.
Qed.
Lemma prefix_written {A} (wf : A -> Prop) enc L x e : written wf enc L -> prefix_l L x e -> is_bytes e ->
  wf x /\ zlen (enc x) <= zlen e.
Proof.
  intros HW (e1 & e2 & H & ->) Hb. split_bytes. destruct (HW _ _ H); [assumption|].
  split; [assumption|]. pose proof (zlen_nonneg e2). lens.
Qed.

Lemma payload_writes : writes wf_payload enc_payload (payload_l map_error).
Proof.
  intros [] H; cbn [wf_payload enc_payload payload_l] in *.
  - exact (prefix_writes _ _ _ _ old_palette_writes H).
  - exact (prefix_writes _ _ _ _ old_palette_writes H).
  - exact (prefix_writes _ _ _ _ layer_writes H).
  - exact (cel_writes _ H).
  - exact (cel_extra_writes _ H).
  - exact (prefix_writes _ _ _ _ color_profile_writes H).
  - exact (prefix_writes _ _ _ _ external_files_writes H).
  - exact (mask_writes _ H).
  - split; [exact I|constructor].
  - exact (prefix_writes _ _ _ _ tags_writes H).
  - exact (prefix_writes _ _ _ _ palette_writes H).
  - exact (prefix_writes _ _ _ _ user_data_writes H).
  - exact (prefix_writes _ _ _ _ slice_writes H).
  - exact (prefix_writes _ _ _ _ tileset_writes H).
  - split; [exact H|constructor].
Qed.
Definition no_error (x : chunk) : Prop :=
  match x with ChUserData u => forall err, ud_properties_maps u <> Some (inr err) | _ => True end.
Lemma payload_written x e : payload_l map_error x e -> is_bytes e -> no_error x ->
  wf_payload x /\ zlen (enc_payload x) <= zlen e.
Proof.
  destruct x; intros H Hb Hn; cbn [wf_payload enc_payload payload_l no_error] in *.
  - exact (prefix_written _ _ _ _ _ old_palette_written H Hb).
  - exact (prefix_written _ _ _ _ _ old_palette_written H Hb).
  - exact (prefix_written _ _ _ _ _ layer_written H Hb).
  - exact (cel_written _ _ H Hb).
  - exact (cel_extra_written _ _ H Hb).
  - exact (prefix_written _ _ _ _ _ color_profile_written H Hb).
  - exact (prefix_written _ _ _ _ _ external_files_written H Hb).
  - exact (mask_written _ _ H Hb).
  - split; [exact I|apply zlen_nonneg].
  - exact (prefix_written _ _ _ _ _ tags_written H Hb).
  - exact (prefix_written _ _ _ _ _ palette_written H Hb).
  - destruct H as (e1 & e2 & H & ->). split_bytes.
    destruct (user_data_chunk_written _ _ H); try assumption.
    split; [assumption|]. pose proof (zlen_nonneg e2). lens.
  - exact (prefix_written _ _ _ _ _ slice_written H Hb).
  - exact (prefix_written _ _ _ _ _ tileset_written H Hb).
  - split; [exact H|apply zlen_nonneg].
Qed.
Lemma chunk_writes : writes wf_chunk enc_chunk (chunk_l map_error).
Proof.
  intros x [H1 H2]. destruct (payload_writes _ H1) as [P1 P2]. split.
  - exists (enc_payload x). split; [exact H2|]. split; [exact P1|].
    rewrite enc_chunk_len. reflexivity.
  - unfold enc_chunk, encode_chunk. bytes_tac.
Qed.
Lemma chunk_written x e : chunk_l map_error x e -> is_bytes e -> no_error x ->
  wf_chunk x /\ zlen (enc_chunk x) <= zlen e.
Proof.
  intros (d & H1 & H2 & H3) Hb Hn. assert (Hd : is_bytes d) by (rewrite H3 in Hb; now split_bytes).
  destruct (payload_written _ _ H2 Hd Hn) as [A B].
  assert (E : zlen e = zlen d + 6) by (rewrite H3; lens).
  assert (zlen (enc_chunk x) <= zlen e) by (rewrite enc_chunk_len; lia).
  split; [|assumption]. split; [assumption|]. pose proof (zlen_nonneg (enc_chunk x)). ranges. lia.
Qed.
Lemma chunks_written l e : seq_l (chunk_l map_error) l e -> is_bytes e -> Forall no_error l ->
  Forall wf_chunk l /\ zlen (flat_map enc_chunk l) <= zlen e.
Proof.
  revert e. induction l as [|x l IH]; intros e H Hb Hn.
  - apply seq_l_nil_inv in H as ->. split; [constructor|reflexivity].
  - apply seq_l_cons_inv in H as (e1 & e2 & -> & H1 & H2). split_bytes.
    inversion Hn as [|y k N1 N2]; subst.
    destruct (chunk_written _ _ H1) as [W1 L1]; try assumption.
    destruct (IH _ H2) as [W2 L2]; try assumption. cbn [flat_map].
    split; [now constructor|lens].
Qed.
Lemma chunks_len l : 6 * zlen l <= zlen (flat_map enc_chunk l).
Proof.
  induction l as [|x l IH]; [cbn; lia|]. cbn [flat_map]. rewrite zlen_app, zlen_cons, enc_chunk_len.
  pose proof (zlen_nonneg (enc_payload x)). lia.
Qed.

(** ** Frames and files *)
Lemma enc_raw_frame_len f : zlen (enc_raw_frame f) = 16 + zlen (flat_map enc_chunk (rf_chunks f)).
Proof. unfold enc_raw_frame. cbv zeta. lens. Qed.
Lemma frame_writes : writes wf_raw_frame enc_raw_frame (frame_l map_error).
Proof.
  intros f (H1 & H2 & H3). destruct (seq_writes _ _ _ _ chunk_writes H2) as [S1 S2]. split.
  - exists 0, (zlen (rf_chunks f)), (zeros 2), (flat_map enc_chunk (rf_chunks f)), [].
    pose proof (zlen_nonneg (rf_chunks f)). conjs.
    + ranges; lia.
    + pose proof (chunks_len (rf_chunks f)). rewrite enc_raw_frame_len in H3. ranges. lia.
    + destruct (_ =? 0) eqn:E; lia.
    + rewrite app_nil_r, enc_raw_frame_len. reflexivity.
  - unfold enc_raw_frame. cbv zeta. bytes_tac.
Qed.
Lemma frame_written f e : frame_l map_error f e -> is_bytes e -> Forall no_error (rf_chunks f) ->
  wf_raw_frame f /\ zlen (enc_raw_frame f) <= zlen e.
Proof.
  intros (old & new & i1 & body & i2 & H1 & H2 & H3 & H4 & H5 & H6 & H7 & H8) Hb Hn.
  assert (Hbody : is_bytes body) by (rewrite H8 in Hb; now split_bytes).
  destruct (chunks_written _ _ H7 Hbody Hn) as [A B].
  assert (E : zlen e = 16 + zlen body + zlen i2) by (rewrite H8; lens).
  pose proof (zlen_nonneg i2). pose proof (zlen_nonneg (enc_raw_frame f)).
  assert (zlen (enc_raw_frame f) <= zlen e) by (rewrite enc_raw_frame_len; lia).
  split; [|assumption]. conjs. ranges. lia.
Qed.
Lemma frames_written l e : seq_l (frame_l map_error) l e -> is_bytes e ->
  Forall (fun f => Forall no_error (rf_chunks f)) l ->
  Forall wf_raw_frame l /\ zlen (flat_map enc_raw_frame l) <= zlen e.
Proof.
  revert e. induction l as [|x l IH]; intros e H Hb Hn.
  - apply seq_l_nil_inv in H as ->. split; [constructor|reflexivity].
  - apply seq_l_cons_inv in H as (e1 & e2 & -> & H1 & H2). split_bytes.
    inversion Hn as [|y k N1 N2]; subst.
    destruct (frame_written _ _ H1) as [W1 L1]; try assumption.
    destruct (IH _ H2) as [W2 L2]; try assumption. cbn [flat_map].
    split; [now constructor|lens].
Qed.
Lemma file_writes : writes wf_file enc_file (raw_file_l map_error).
Proof.
  intros f (H1 & H2 & H3). destruct (header_writes _ H1), (seq_writes _ _ _ _ frame_writes H3).
  unfold enc_file. split; [|bytes_tac]. eexists _, _. conjs; eassumption.
Qed.
Lemma file_written f e : raw_file_l map_error f e -> is_bytes e -> no_map_error f ->
  wf_file f /\ zlen (enc_file f) <= zlen e.
Proof.
  intros (e1 & e2 & H1 & H2 & H3 & ->) Hb Hn. split_bytes.
  destruct (header_written _ _ H1) as [A B]; [assumption|].
  destruct (frames_written _ _ H3) as [C D]; [assumption| |].
  - apply Forall_forall. intros fr Hf. apply Forall_forall. intros x Hx. destruct x; try exact I.
    intros err. exact (Hn fr u err Hf Hx).
  - unfold enc_file. split; [conjs|lens].
Qed.
End WithError.

(** ** The parser *)
Theorem write_read c f : cfg_ok c -> wf_file f -> addressable c (enc_file f) ->
  parse_raw_file c (enc_file f) = Ok f.
Proof.
  intros Hc Hf Ha. destruct (file_writes (kept_error c) f Hf). now apply parse_raw_file_iff.
Qed.
Theorem read_wf c i f : cfg_ok c -> is_bytes i -> addressable c i ->
  parse_raw_file c i = Ok f -> no_map_error f -> wf_file f /\ zlen (enc_file f) <= zlen i.
Proof.
  intros Hc Hb Ha H Hn. apply parse_raw_file_iff in H; try assumption.
  exact (file_written _ _ _ H Hb Hn).
Qed.
Theorem read_write c i f : cfg_ok c -> is_bytes i -> addressable c i ->
  parse_raw_file c i = Ok f -> no_map_error f ->
  is_bytes (enc_file f) /\ zlen (enc_file f) <= zlen i /\ parse_raw_file c (enc_file f) = Ok f.
Proof.
  intros Hc Hb Ha H Hn. destruct (read_wf c i f) as [A B]; try assumption.
  destruct (file_writes (kept_error c) f A). unfold addressable in *.
  repeat split; try assumption. apply write_read; try assumption. unfold addressable. lia.
Qed.
