(** Sizes of parse results. *)
From Verif.Model Require Import Loader.
From Verif.Spec Require Import Format FileSpec Encode Size.
From Verif.Proofs Require Import ParseLib ChunkFacts UserDataFacts RawFacts EncodeFacts EncodeProps
  FileProps LoaderFacts.
From Verif.Spec Require LoaderSpec.
Local Ltac Zify.zify_post_hook ::= Z.div_mod_to_equations.

Lemma total_cons {A} (w : A -> Z) x l : total w (x :: l) = w x + total w l.
Proof. reflexivity. Qed.
Lemma total_app {A} (w : A -> Z) a b : total w (a ++ b) = total w a + total w b.
Proof. induction a; cbn [app]; rewrite ?total_cons; [reflexivity|lia]. Qed.
Lemma total_one {A} (w : A -> Z) l : total (fun x => 1 + w x) l = zlen l + total w l.
Proof. induction l; rewrite ?total_cons, ?zlen_cons; [reflexivity|lia]. Qed.
Lemma total_const {A} (w : A -> Z) k l : (forall x, In x l -> w x = k) -> total w l = k * zlen l.
Proof.
  induction l as [|x l IH]; intro H; rewrite ?total_cons, ?zlen_cons; [cbn; lia|].
  rewrite IH, (H x); [lia|now left|]. intros y Hy. apply H. now right.
Qed.

Lemma seq_total {A} (L : A -> bytes -> Prop) (w : A -> Z) l e :
  (forall x e, L x e -> w x <= zlen e) -> seq_l L l e -> total w l <= zlen e.
Proof.
  intro HW. revert e. induction l as [|x l IH]; intros e H.
  - apply seq_l_nil_inv in H as ->. reflexivity.
  - apply seq_l_cons_inv in H as (e1 & e2 & -> & H1 & H2). rewrite zlen_app, total_cons.
    apply HW in H1. apply IH in H2. lia.
Qed.
Lemma seq_count {A} (L : A -> bytes -> Prop) l e :
  (forall x e, L x e -> 1 <= zlen e) -> seq_l L l e -> zlen l <= zlen e.
Proof.
  intros HW H. apply (seq_total L (fun _ => 1)) in H; [|exact HW].
  rewrite (total_const _ 1) in H by reflexivity. lia.
Qed.

Ltac poslen := repeat match goal with
  | |- context [zlen ?x] => lazymatch goal with _ : 0 <= zlen x |- _ => fail
                            | _ => pose proof (zlen_nonneg x) end
  | _ : context [zlen ?x] |- _ => lazymatch goal with _ : 0 <= zlen x |- _ => fail
                            | _ => pose proof (zlen_nonneg x) end end.

Ltac pos_elem := let x := fresh in let e := fresh in let H := fresh in intros x e H; hnf in H;
  repeat match goal with H : exists _, _ |- _ => destruct H as [? H] end;
  decompose [and] H; subst e; rewrite ?zlen_app, ?zlen_le, ?zlen_les, ?zlen_cons; poslen; lia.
Lemma rect_pos x e : rect_l x e -> 1 <= zlen e.
Proof. intros (e1 & e2 & (_ & _ & ->) & _ & ->). rewrite !zlen_app, !zlen_les. poslen. lia. Qed.
Lemma user_data_size :
  (forall v e, value_l v e -> value_items v <= zlen e) /\
  (forall v e, vector_l v e -> vector_items v + 6 <= zlen e) /\
  (forall v e, map_l v e -> map_items v + 8 <= zlen e) /\
  (forall l e, props_l l e -> total prop_items l <= zlen e) /\
  (forall l e, values_l l e -> total value_items l <= zlen e) /\
  (forall l e, vectors_l l e -> total vector_items l + zlen l <= zlen e) /\
  (forall l e, maps_l l e -> total map_items l + zlen l <= zlen e).
Proof.
  apply user_data_ind.
  all: try (intros x e H; cbn [value_items]; rewrite zlen_app, zlen_le; poslen; lia).
  all: try (intros x e _ IH; cbn [value_items]; rewrite zlen_app, zlen_le; lia).
  all: try (intros x e _ _ IH; cbn [vector_items]; rewrite !zlen_app, !zlen_le; lia).
  all: try lazymatch goal with |- total _ [] <= _ => reflexivity | |- total _ [] + _ <= _ => reflexivity end.
  all: try (intros l e _ H; cbn [vector_items]; rewrite !zlen_app, !zlen_le;
    let C := fresh in assert (C : zlen l <= zlen e);
    [revert H; apply seq_count; first [exact rect_pos|pos_elem]|lia]).
  - intros id l e _ _ _ IH. cbn [map_items]. rewrite !zlen_app, !zlen_le. lia.
  - intros name v l e1 e2 e3 _ _ IH1 _ IH2. rewrite total_cons, !zlen_app. cbn [prop_items]. poslen. lia.
  - intros v l e1 e2 _ IH1 _ IH2. rewrite total_cons, !zlen_app. lia.
  - intros v l e1 e2 _ IH1 _ IH2. rewrite total_cons, !zlen_app, zlen_cons. lia.
  - intros v l e1 e2 _ IH1 _ IH2. rewrite total_cons, !zlen_app, zlen_cons. lia.
Qed.

Section WithError.
Variable map_error : bytes -> Z -> nom_err -> Prop.
Lemma user_data_chunk_size u e : user_data_l map_error u e -> user_data_items u <= zlen e.
Proof.
  intros (f & e1 & e2 & e3 & _ & _ & _ & _ & _ & H & _ & ->). unfold user_data_items.
  rewrite !zlen_app. destruct (ud_properties_maps u) as [[[rest ms]|err]|]; cbn in H; try (poslen; lia).
  destruct H as (n & area & _ & _ & (e' & -> & _ & H) & ->).
  apply user_data_size in H. rewrite total_one, !zlen_app. poslen. lia.
Qed.
Lemma prefix_size {A} (L : A -> bytes -> Prop) (w : A -> Z) x d :
  (forall e, L x e -> w x <= zlen e) -> prefix_l L x d -> w x <= zlen d.
Proof. intros HW (e & ig & H & ->). apply HW in H. rewrite zlen_app. poslen. lia. Qed.
Lemma packet_size p e : packet_l p e -> 1 + zlen (pk_colors p) <= zlen e.
Proof.
  intros (n & body & _ & _ & _ & H & ->). apply seq_count in H; [|pos_elem].
  rewrite !zlen_app, !zlen_le. lia.
Qed.
Lemma old_palette_size p e : old_palette_l p e ->
  total (fun q => 1 + zlen (pk_colors q)) (op_packets p) <= zlen e.
Proof.
  intros (body & _ & H & ->). apply (seq_total _ _ _ _ packet_size) in H. rewrite zlen_app. poslen. lia.
Qed.
Lemma payload_size x d : payload_l map_error x d -> chunk_items x <= zlen d.
Proof.
  destruct x; intro H; cbn [payload_l chunk_items] in *; try (poslen; lia).
  - revert H. apply (prefix_size _ (fun q => total _ (op_packets q))). apply old_palette_size.
  - revert H. apply (prefix_size _ (fun q => total _ (op_packets q))). apply old_palette_size.
  - revert H. apply (prefix_size _ (fun q => zlen (efc_files q))).
    intros e (ig & body & _ & _ & H & ->). apply seq_count in H; [|pos_elem]. rewrite !zlen_app. poslen. lia.
  - revert H. apply (prefix_size _ (fun q => zlen (tc_tags q))).
    intros e (ig & body & _ & _ & H & ->). apply seq_count in H; [|pos_elem]. rewrite !zlen_app. poslen. lia.
  - revert H. apply (prefix_size _ (fun q => zlen (pc_entries q))).
    intros e (ig & body & _ & _ & _ & _ & H & ->). apply seq_count in H; [|pos_elem]. rewrite !zlen_app. poslen. lia.
  - revert H. apply (prefix_size _ user_data_items). apply user_data_chunk_size.
  - revert H. apply (prefix_size _ (fun q => zlen (sc_slice_keys q))).
    intros e (f & ig & e1 & body & _ & _ & _ & _ & H & _ & _ & ->). apply seq_count in H; [|pos_elem].
    rewrite !zlen_app. poslen. lia.
Qed.
Lemma chunk_size x e : chunk_l map_error x e -> 1 + chunk_items x <= zlen e.
Proof.
  intros (d & _ & H & ->). apply payload_size in H. rewrite !zlen_app, !zlen_le. lia.
Qed.
Lemma frame_size f e : frame_l map_error f e -> 1 + raw_frame_items f <= zlen e.
Proof.
  intros (old & new & i1 & body & i2 & _ & _ & _ & _ & _ & _ & H & ->).
  apply (seq_total _ _ _ _ chunk_size) in H. unfold raw_frame_items.
  rewrite !zlen_app, !zlen_le. poslen. lia.
Qed.
Lemma header_len h e : header_l h e -> zlen e = 128.
Proof.
  intros (depth & i1 & i2 & H). decompose [and] H. subst e.
  change [0; 0; 0; 0; 0; 0; 0; 0] with (zeros 8). lens.
Qed.
Lemma raw_size f e : raw_file_l map_error f e -> 128 + raw_items f <= zlen e.
Proof.
  intros (e1 & e2 & H1 & _ & H2 & ->). apply header_len in H1. rewrite zlen_app, H1.
  apply (seq_total _ _ _ _ frame_size) in H2. unfold raw_items. lia.
Qed.

(** Frames take 16 bytes, layers 24. *)
Definition layers_in (cs : list chunk) : Z :=
  total (fun x => match x with ChLayer _ => 1 | _ => 0 end) cs.
Lemma layer_size x e : chunk_l map_error x e -> 24 * match x with ChLayer _ => 1 | _ => 0 end <= zlen e.
Proof.
  intro H. destruct x; try (poslen; lia). destruct H as (d & _ & (e' & ig & H & ->) & ->).
  destruct H as (fl & ty & dw & dh & bm & ig' & en & et & H). decompose [and] H.
  match goal with H : string_l _ _ |- _ => destruct H as (_ & _ & ->) end.
  subst e'. repeat rewrite ?zlen_app, ?zlen_le. poslen. lia.
Qed.
Lemma total_scale {A} (w : A -> Z) k l : total (fun x => k * w x) l = k * total w l.
Proof. induction l; rewrite ?total_cons; [cbn; lia|]. rewrite IHl. lia. Qed.
Lemma frame_layers f e : frame_l map_error f e -> 16 + 24 * layers_in (rf_chunks f) <= zlen e.
Proof.
  intros (old & new & i1 & body & i2 & _ & _ & _ & I1 & _ & _ & H & ->).
  apply (seq_total _ _ _ _ layer_size) in H. rewrite total_scale in H. unfold layers_in.
  rewrite !zlen_app, !zlen_le. poslen. lia.
Qed.
Lemma spec_layers_len cs : zlen (spec_layers cs) = layers_in cs.
Proof.
  unfold spec_layers, layers_in. induction cs as [|x cs IH]; [reflexivity|].
  rewrite total_cons. cbn [suffixes flat_map]. rewrite zlen_app, IH. destruct x; reflexivity.
Qed.
Lemma raw_layers f e : raw_file_l map_error f e ->
  128 + 16 * zlen (rw_frames f) + 24 * layer_count f <= zlen e.
Proof.
  intros (e1 & e2 & H1 & _ & H2 & ->). apply header_len in H1. rewrite zlen_app, H1.
  apply (seq_total _ _ _ _ frame_layers) in H2.
  assert (E : total (fun f => 16 + 24 * layers_in (rf_chunks f)) (rw_frames f) =
              16 * zlen (rw_frames f) + 24 * layer_count f).
  { clear H2. unfold layer_count, spec_all_layers. induction (rw_frames f) as [|x l IH]; [reflexivity|].
    cbn [flat_map]. rewrite total_cons, zlen_app, zlen_cons, spec_layers_len. lia. }
  lia.
Qed.
End WithError.

Theorem raw_linear c i f : cfg_ok c -> is_bytes i -> addressable c i -> parse_raw_file c i = Ok f ->
  128 + raw_items f <= zlen i.
Proof. intros Hc Hb Ha H. apply parse_raw_file_iff in H; try assumption. now apply raw_size in H. Qed.

Theorem file_slots c i f : cfg_ok c -> is_bytes i -> addressable c i -> parse_file c i = Ok f ->
  cel_slots f = zlen (f_frames f) * zlen (f_layers f) /\
  128 + 16 * zlen (f_frames f) + 24 * zlen (f_layers f) <= zlen i.
Proof.
  intros Hc Hb Ha H. apply parse_file_ok in H as (raw & pal & HL & _ & _ & -> & _); try assumption.
  cbn [f_frames f_layers file_of]. split.
  - unfold cel_slots. cbn [f_frames file_of]. rewrite (total_const _ (layer_count raw)).
    + unfold layer_count, zlen. rewrite map_length. lia.
    + intros x Hx. apply in_map_iff in Hx as (y & <- & _). cbn. apply slots_length. apply zlen_nonneg.
  - apply raw_layers in HL. unfold layer_count in HL. unfold zlen in *. rewrite map_length. lia.
Qed.
Theorem file_quadratic c i f : cfg_ok c -> is_bytes i -> addressable c i -> parse_file c i = Ok f ->
  1536 * cel_slots f <= (zlen i - 128) * (zlen i - 128).
Proof.
  intros Hc Hb Ha H. apply file_slots in H as [-> H]; try assumption.
  set (a := zlen (f_frames f)) in *. set (b := zlen (f_layers f)) in *.
  assert (0 <= a) by apply zlen_nonneg. assert (0 <= b) by apply zlen_nonneg.
  assert (E : (16 * a + 24 * b) * (16 * a + 24 * b) <= (zlen i - 128) * (zlen i - 128))
    by (apply Z.mul_le_mono_nonneg; lia).
  assert (0 <= (16 * a - 24 * b) * (16 * a - 24 * b)) by apply Z.square_nonneg. lia.
Qed.

(** ** Files with as many cel places as frames times layers, without any cel *)
Definition wide_header : header :=
  {| h_file_size := 0; h_frames := 1; h_width := 1; h_height := 1; h_color_depth := Rgba;
     h_flags := 0; h_speed := 0; h_transparent_index := 0; h_color_count := 0; h_pixel_width := 0;
     h_pixel_height := 0; h_grid_x := 0; h_grid_y := 0; h_grid_width := 0; h_grid_height := 0 |}.
Definition wide_layer : layer_chunk :=
  {| lc_flags := 1; lc_layer_type := LNormal; lc_child_level := 0; lc_blend_mode := BNormal;
     lc_opacity := 255; lc_name := []; lc_tileset_index := None; lc_user_data := None |}.
Definition wide_frame : raw_frame := {| rf_duration := 100; rf_chunks := [ChLayer wide_layer] |}.
Definition wide (n : nat) : raw_file :=
  {| rw_header := wide_header; rw_frames := repeat wide_frame n |}.

Lemma wide_wf n : (0 < n)%nat -> wf_file (wide n).
Proof.
  intro Hn. split; [|split].
  - unfold wf_header. cbn. ranges. repeat split; lia.
  - destruct n; [lia|]. discriminate.
  - apply Forall_forall. intros x Hx. apply repeat_spec in Hx as ->. split; [ranges; cbn; lia|].
    assert (W : wf_payload (ChLayer wide_layer)).
    { cbn. unfold wf_layer. cbn. repeat match goal with |- _ /\ _ => split end; try (ranges; cbn; lia); auto.
      - split; [ranges; cbn; lia|]. exists []. split; [constructor|reflexivity].
      - split; [intros []|discriminate]. }
    split; [|ranges; vm_compute; split; [discriminate|reflexivity]].
    constructor; [|constructor]. split; [exact W|ranges; vm_compute; split; [discriminate|reflexivity]].
Qed.
Lemma wide_len n : zlen (enc_file (wide n)) = 128 + 40 * Z.of_nat n.
Proof.
  unfold enc_file. cbn [wide rw_header rw_frames]. rewrite zlen_app.
  change (zlen (enc_header wide_header)) with 128. f_equal.
  induction n as [|n IH]; [reflexivity|]. cbn [repeat flat_map]. rewrite zlen_app, IH.
  change (zlen (enc_raw_frame wide_frame)) with 40. lia.
Qed.
Lemma wide_layers n : layer_count (wide n) = Z.of_nat n.
Proof.
  unfold layer_count, spec_all_layers. cbn [wide rw_frames].
  induction n as [|n IH]; [reflexivity|]. cbn [repeat flat_map]. rewrite zlen_app, IH.
  change (zlen (spec_layers (rf_chunks wide_frame))) with 1. lia.
Qed.
Lemma wide_cels n : frame_cels (wide n) = [].
Proof. unfold frame_cels. cbn [wide rw_frames]. induction n; [reflexivity|]. cbn [repeat flat_map]. exact IHn. Qed.
Lemma wide_parse c n : cfg_ok c -> (0 < n)%nat -> 128 + 40 * Z.of_nat n < 2 ^ (usize_bits c - 1) ->
  parse_file c (enc_file (wide n)) = Ok (file_of (wide n) None).
Proof.
  intros Hc Hn Ha. assert (Hw := wide_wf n Hn).
  assert (A : addressable c (enc_file (wide n))) by (unfold addressable; now rewrite wide_len).
  destruct (file_writes (kept_error c) _ Hw) as [HL Hb].
  rewrite parse_file_eq, (write_read c _ Hc Hw A) by assumption. cbn [bind].
  unfold spec_outcome, palette_of. cbn [wide rw_header wide_header h_color_depth].
  fold (wide n). rewrite wide_cels. reflexivity.
Qed.

Lemma slots_empty n : Forall (fun o => o = None) (slots n []).
Proof. apply Forall_forall. intros x Hx. apply in_map_iff in Hx as (k & <- & _). reflexivity. Qed.
Lemma somes_none {A} (l : list (option A)) : Forall (fun o => o = None) l -> somes l = [].
Proof. induction 1 as [|x l -> _ IH]; [reflexivity|exact IH]. Qed.

Lemma wide_build n : exists s, build_sprite (file_of (wide n) None) = Ok s /\
  af_file s = file_of (wide n) None.
Proof.
  set (f := file_of (wide n) None).
  assert (E : Forall (fun fr => somes (fr_cels fr) = []) (f_frames f)).
  { apply Forall_forall. intros fr Hfr. apply in_map_iff in Hfr as (y & <- & Hy).
    cbn [wide rw_frames] in Hy. apply repeat_spec in Hy as ->. cbn [fr_cels].
    apply somes_none. apply slots_empty. }
  unfold build_sprite. assert (C : collect_images (f_frames f) = ([], [])).
  { unfold collect_images. rewrite numbered_enumerate. generalize 0. clearbody f.
    induction E as [|fr l Hfr _ IH]; intro k; [reflexivity|].
    cbn [LoaderSpec.numbered fold_left]. unfold collect_frame at 2. cbn [fst snd]. rewrite Hfr. apply IH. }
  rewrite C.
  assert (M : exists fs, map_out (build_frame [] []) (enumerate (f_frames f)) = Ok fs).
  { rewrite numbered_enumerate. clear C. generalize 0. clearbody f.
    induction E as [|fr l Hfr _ IH]; intro k; [now exists []|].
    cbn [LoaderSpec.numbered map_out]. unfold build_frame at 1. cbn [fst snd]. rewrite Hfr.
    cbn [map_out bind]. destruct (IH (k + 1)) as [fs ->]. cbn [bind]. eauto. }
  destruct M as [fs ->]. cbn [bind]. eexists. split; reflexivity.
Qed.

Theorem slots_unbounded c n : cfg_ok c -> 0 < n -> 128 + 40 * n < 2 ^ (usize_bits c - 1) ->
  exists i s, is_bytes i /\ zlen i = 128 + 40 * n /\ load c i = Ok s /\
    Forall (fun fr => Forall (fun o => o = None) (fr_cels fr)) (f_frames (af_file s)) /\
    cel_slots (af_file s) = n * n.
Proof.
  intros Hc Hn Ha. set (k := Z.to_nat n). assert (K : Z.of_nat k = n) by (subst k; lia).
  destruct (wide_build k) as (s & Hs & Es). exists (enc_file (wide k)), s.
  assert (Hw : wf_file (wide k)) by (apply wide_wf; lia).
  destruct (file_writes not_maps _ Hw) as [_ Hb].
  assert (P : parse_file c (enc_file (wide k)) = Ok (file_of (wide k) None))
    by (apply wide_parse; [assumption|lia..]).
  split; [exact Hb|]. split; [rewrite wide_len; lia|]. split.
  { unfold load. rewrite P. exact Hs. }
  rewrite Es. split.
  - apply Forall_forall. intros fr Hfr. apply in_map_iff in Hfr as (y & <- & Hy).
    cbn [wide rw_frames] in Hy. apply repeat_spec in Hy as ->. apply slots_empty.
  - apply file_slots in P as [-> _]; try assumption; [|unfold addressable; rewrite wide_len; lia].
    cbn [file_of f_frames f_layers]. change (zlen (spec_all_layers (wide k))) with (layer_count (wide k)).
    rewrite wide_layers, K. f_equal. unfold zlen. rewrite map_length. cbn [wide rw_frames].
    rewrite repeat_length. exact K.
Qed.

(** No constant bounds the number of cel places per byte of input. *)
Theorem slots_not_linear c K : cfg_ok c -> 0 <= K -> 40 * (41 * K + 129) + 128 < 2 ^ (usize_bits c - 1) ->
  exists i s, is_bytes i /\ addressable c i /\ load c i = Ok s /\ K * zlen i < cel_slots (af_file s).
Proof.
  intros Hc HK Ha. destruct (slots_unbounded c (41 * K + 129) Hc) as (i & s & H1 & H2 & H3 & _ & H4); [lia..|].
  exists i, s. unfold addressable. rewrite H2, H4. repeat split; try assumption; [lia|]. nia.
Qed.
