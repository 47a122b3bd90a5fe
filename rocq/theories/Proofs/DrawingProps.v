(** Sprites that are written and loaded again. *)
From Verif.Model Require Import Loader Inflate.
From Verif.Spec Require Import Bytes Utf8Spec Format Encode FileSpec LoaderSpec Slices ImageSpec Zlib Drawing.
From Verif.Proofs Require Import ParseLib EncodeFacts EncodeProps FileFacts FileProps FileFinal
  LoaderFacts LoaderProps ImageFacts ImageProps InflateFacts.

(** ** The chunks hold no user data *)
Definition plain (x : chunk) : Prop := forall u, x <> ChUserData u.
Lemma plain_own cs : Forall plain cs -> own cs = None.
Proof. intros H. destruct H as [|x cs Hx H]; [reflexivity|]. destruct x; try reflexivity. now destruct (Hx u). Qed.

Lemma plain_layers cs : Forall plain cs ->
  spec_layers cs = flat_map (fun x => match x with ChLayer l => [layer_with l None] | _ => [] end) cs.
Proof.
  unfold spec_layers. induction 1 as [|x cs Hx H IH]; [reflexivity|]. cbn [suffixes flat_map].
  rewrite IH, (plain_own _ H). reflexivity.
Qed.
Lemma plain_cels cs : Forall plain cs ->
  spec_cels cs = flat_map (fun x => match x with ChCel l => [cel_with l None] | _ => [] end) cs.
Proof.
  unfold spec_cels. induction 1 as [|x cs Hx H IH]; [reflexivity|]. cbn [suffixes flat_map].
  rewrite IH, (plain_own _ H). reflexivity.
Qed.

Definition layer_chunks (ls : list layer) : list chunk := map (fun l => ChLayer (layer_to_chunk l)) ls.
Definition cels_of (ps : list (option picture)) : list cel_chunk :=
  map (fun '(k, p) => picture_cel k p) (pictures ps).

Lemma plain_map {A} (f : A -> chunk) l : (forall a, plain (f a)) -> Forall plain (map f l).
Proof. intros H. apply Forall_forall. intros x Hx. apply in_map_iff in Hx as (a & <- & _). apply H. Qed.
Lemma plain_cel_chunks ps : Forall plain (cel_chunks ps).
Proof. apply plain_map. intros [k p] u. discriminate. Qed.
Lemma plain_layer_chunks ls : Forall plain (layer_chunks ls).
Proof. apply plain_map. intros l u. discriminate. Qed.

Lemma plain_palette m : Forall plain (palette_chunks_of m).
Proof. destruct m; repeat constructor. intros u. discriminate. Qed.
Lemma plain_first m ls ps : Forall plain (palette_chunks_of m ++ layer_chunks ls ++ cel_chunks ps).
Proof. apply Forall_app; split; [apply plain_palette|]. apply Forall_app; split; [apply plain_layer_chunks|apply plain_cel_chunks]. Qed.

Lemma layers_of_layers ls : spec_layers (layer_chunks ls) = map layer_to_chunk ls.
Proof.
  rewrite plain_layers by apply plain_layer_chunks. unfold layer_chunks.
  induction ls as [|l ls IH]; [reflexivity|]. cbn [map flat_map app]. f_equal. exact IH.
Qed.
Lemma cels_of_cels ps : spec_cels (cel_chunks ps) = cels_of ps.
Proof.
  rewrite plain_cels by apply plain_cel_chunks. unfold cel_chunks, cels_of.
  induction (pictures ps) as [|[k p] l IH]; [reflexivity|]. cbn [map flat_map app]. f_equal. exact IH.
Qed.
Lemma layers_of_cels ps : spec_layers (cel_chunks ps) = [].
Proof.
  rewrite plain_layers by apply plain_cel_chunks. unfold cel_chunks.
  induction (pictures ps) as [|[k p] l IH]; [reflexivity|]. exact IH.
Qed.
Lemma layers_of_first m ls ps : spec_layers (palette_chunks_of m ++ layer_chunks ls ++ cel_chunks ps) = map layer_to_chunk ls.
Proof.
  rewrite plain_layers by apply plain_first.
  rewrite !flat_map_app, <- (plain_layers (layer_chunks ls)), <- (plain_layers (cel_chunks ps))
    by (apply plain_layer_chunks || apply plain_cel_chunks).
  rewrite layers_of_layers, layers_of_cels, app_nil_r. now destruct m.
Qed.
Lemma cels_of_first m ls ps : spec_cels (palette_chunks_of m ++ layer_chunks ls ++ cel_chunks ps) = cels_of ps.
Proof.
  rewrite plain_cels by apply plain_first.
  rewrite !flat_map_app, <- (plain_cels (cel_chunks ps)) by apply plain_cel_chunks.
  rewrite cels_of_cels. rewrite app_assoc. change (cels_of ps) with ([] ++ cels_of ps) at 2. f_equal.
  assert (E : flat_map (fun x => match x with ChCel l => [cel_with l None] | _ => [] end) (layer_chunks ls) = []).
  { unfold layer_chunks. induction ls as [|l ls IH]; [reflexivity|]. exact IH. }
  rewrite E, app_nil_r. now destruct m.
Qed.

(** ** The palette *)
Definition seen (m : colours) : option palette :=
  match m with Palette pal t => Some (map (colour pal t) (zrange 256)) | _ => None end.

Lemma number_app a b : forall k, number k (a ++ b) = number k a ++ number (k + zlen a) b.
Proof.
  induction a as [|e a IH]; intro k; cbn [app number]; [unfold zlen; cbn; now rewrite Z.add_0_r|].
  rewrite IH. replace (k + zlen (e :: a)) with (k + 1 + zlen a) by (unfold zlen; cbn [length]; lia). reflexivity.
Qed.
Lemma number_fst es : forall k, Forall (fun w => k <= fst w < k + zlen es) (number k es).
Proof.
  induction es as [|e es IH]; intro k; cbn [number]; constructor.
  - unfold zlen. cbn. lia.
  - eapply Forall_impl; [|apply IH]. intros w. unfold zlen. cbn [length fst]. lia.
Qed.
Lemma filter_id {A} (f : A -> bool) l : Forall (fun x => f x = true) l -> filter f l = l.
Proof. induction 1 as [|x l Hx H IH]; [reflexivity|]. cbn. now rewrite Hx, IH. Qed.

Definition entries (pal : list color) : list palette_entry := map (fun x => {| pe_color := x; pe_name := None |}) pal.
Lemma assigned_number pal k : 0 <= k -> assigned (number 0 (entries pal)) k = nth (Z.to_nat k) pal black.
Proof.
  intro Hk. destruct (nth_error pal (Z.to_nat k)) as [x|] eqn:E.
  - rewrite (nth_error_nth _ _ _ E). apply nth_error_split in E as (a & b & -> & Hl).
    unfold entries. rewrite map_app. cbn [map]. rewrite number_app. cbn [number pe_color].
    assert (El : 0 + zlen (map (fun x => {| pe_color := x; pe_name := None |}) a) = k) by (unfold zlen; rewrite map_length; lia).
    rewrite El. apply assigned_last. eapply Forall_impl; [|apply number_fst]. intros w. cbn. lia.
  - rewrite nth_overflow by (now apply nth_error_None). apply assigned_none. apply nth_error_None in E.
    eapply Forall_impl; [|apply number_fst]. intros w. unfold zlen, entries. rewrite map_length. lia.
Qed.

Lemma no_palettes {A} (g : chunk -> list A) ps : (forall x, g (ChCel x) = []) -> flat_map g (cel_chunks ps) = [].
Proof. intro H. unfold cel_chunks. induction (pictures ps) as [|[k p] l IH]; [reflexivity|]. cbn [map flat_map]. now rewrite H, IH. Qed.
Lemma drawing_chunks {A} (g : chunk -> list A) d : (forall x, g (ChCel x) = []) -> (forall x, g (ChLayer x) = []) ->
  dr_frames d <> [] -> flat_map g (all_chunks (rw_frames (drawing_raw d))) = flat_map g (palette_chunks_of (dr_colours d)).
Proof.
  intros H1 H2 Hne. unfold all_chunks, drawing_raw. cbn [rw_frames]. destruct (dr_frames d) as [|[ms ps] rest]; [congruence|].
  cbn [flat_map rf_chunks]. rewrite !flat_map_app, no_palettes, app_nil_r by exact H1.
  assert (E : flat_map g (flat_map rf_chunks (map (fun '(ms, ps) => {| rf_duration := ms; rf_chunks := cel_chunks ps |}) rest)) = []).
  { clear Hne. induction rest as [|[m q] rest IH]; [reflexivity|]. cbn [map flat_map rf_chunks]. now rewrite flat_map_app, no_palettes, IH. }
  rewrite E, app_nil_r. assert (L : flat_map g (map (fun l => ChLayer (layer_to_chunk l)) (dr_layers d)) = []).
  { induction (dr_layers d) as [|l ls IH]; [reflexivity|]. cbn [map flat_map]. now rewrite H2, IH. }
  now rewrite L, app_nil_r.
Qed.

Lemma drawing_palette d : dr_frames d <> [] -> wf_colours (dr_colours d) -> palette_of (drawing_raw d) = Ok (seen (dr_colours d)).
Proof.
  intros Hne Hw. unfold palette_of. unfold drawing_raw at 1. cbn [rw_header h_color_depth].
  destruct (dr_colours d) as [| |pal t] eqn:Em; try reflexivity. cbn [depth seen].
  replace (h_transparent_index (rw_header (drawing_raw d))) with t by (unfold drawing_raw; cbn; now rewrite Em).
  unfold spec_palette, spec_writes, new_palettes.
  rewrite drawing_chunks by (reflexivity || exact Hne). rewrite Em. cbn [palette_chunks_of flat_map app].
  unfold new_writes. cbn [pc_first pc_last pc_entries]. rewrite app_nil_r. fold (entries pal).
  destruct Hw as ([Hlo Hhi] & _ & Ht).
  rewrite filter_id.
  2:{ eapply Forall_impl; [|apply number_fst]. intros w. unfold zlen, entries. rewrite map_length. intro. apply Z.leb_le. lia. }
  assert (Hn : exists w ws, number 0 (entries pal) = w :: ws).
  { destruct pal; [unfold zlen in Hlo; cbn in Hlo; lia|]. cbn. eauto. }
  destruct Hn as (w & ws & Hn). rewrite Hn. cbv iota beta. rewrite <- Hn. do 2 f_equal.
  apply map_ext_in. intros k Hk. unfold zrange in Hk. apply in_map_iff in Hk as (n & <- & _).
  unfold spec_color, colour. rewrite assigned_number by lia. destruct (_ =? _); [reflexivity|]. now destruct (nth _ pal black).
Qed.

(** ** Slots *)
Lemma cel_at_cons k x l : cel_at k (x :: l) =
  match cel_at k l with Some y => Some y | None => if cc_layer_index x =? k then Some x else None end.
Proof.
  unfold cel_at. cbn [rev]. induction (rev l) as [|y m IH]; cbn [app find]; [reflexivity|].
  destruct (cc_layer_index y =? k); [reflexivity|exact IH].
Qed.

Lemma numbered_ge {A} (l : list A) : forall k0 k a, In (k, a) (numbered k0 l) -> k0 <= k < k0 + zlen l.
Proof.
  induction l as [|b l IH]; intros k0 k a; cbn [numbered In]; [tauto|]. unfold zlen in *. cbn [length].
  intros [[= <- <-]|H]; [lia|]. apply IH in H. lia.
Qed.
Definition pictures_from (k0 : Z) (ps : list (option picture)) : list (Z * picture) :=
  flat_map (fun '(k, o) => match o with Some p => [(k, p)] | None => [] end) (numbered k0 ps).
Definition slot_of (o : option (option picture)) (k : Z) : option cel_chunk :=
  match o with Some (Some p) => Some (picture_cel k p) | _ => None end.

Lemma pictures_from_ge ps : forall k0 k p, In (k, p) (pictures_from k0 ps) -> k0 <= k < k0 + zlen ps.
Proof.
  intros k0 k p H. apply in_flat_map in H as ([k' o] & H & Hp). apply numbered_ge in H.
  destruct o as [q|]; [|contradiction]. destruct Hp as [[= <- <-]|[]]. exact H.
Qed.

Lemma cel_at_absent k (l : list (Z * picture)) : (forall j p, In (j, p) l -> j <> k) ->
  cel_at k (map (fun '(k, p) => picture_cel k p) l) = None.
Proof.
  induction l as [|[j p] l IH]; intros H; [reflexivity|]. cbn [map]. rewrite cel_at_cons, IH.
  - cbn [cc_layer_index picture_cel]. destruct (Z.eqb_spec j k); [|reflexivity].
    destruct (H j p); [now left|assumption].
  - intros j' p' Hin. apply (H j' p'). now right.
Qed.

Lemma cel_at_pictures ps : forall k0 j,
  cel_at (k0 + Z.of_nat j) (map (fun '(k, p) => picture_cel k p) (pictures_from k0 ps)) =
    slot_of (nth_error ps j) (k0 + Z.of_nat j).
Proof.
  induction ps as [|o ps IH]; intros k0 j; [destruct j; reflexivity|].
  unfold pictures_from. cbn [numbered flat_map]. fold (pictures_from (k0 + 1) ps).
  destruct j as [|j].
  - rewrite Z.add_0_r. cbn [nth_error slot_of].
    assert (Ha : cel_at k0 (map (fun '(k, p) => picture_cel k p) (pictures_from (k0 + 1) ps)) = None).
    { apply cel_at_absent. intros j p H. apply pictures_from_ge in H. lia. }
    destruct o as [p|]; cbn [app map]; [|exact Ha]. rewrite cel_at_cons, Ha. cbn [cc_layer_index picture_cel].
    now rewrite Z.eqb_refl.
  - cbn [nth_error]. replace (k0 + Z.of_nat (S j)) with (k0 + 1 + Z.of_nat j) by lia.
    destruct o as [p|]; cbn [app map]; [|apply IH]. rewrite cel_at_cons, IH.
    destruct (slot_of _ _); [reflexivity|]. cbn [cc_layer_index picture_cel].
    destruct (Z.eqb_spec k0 (k0 + 1 + Z.of_nat j)); [lia|reflexivity].
Qed.

Lemma slots_pictures ps : slots (zlen ps) (cels_of ps) =
  map (fun '(k, o) => match o with Some p => Some (picture_cel k p) | None => None end) (numbered 0 ps).
Proof.
  assert (Hl : length (numbered 0 ps) = length ps).
  { generalize 0. induction ps as [|o ps IH]; intros k; cbn; [reflexivity|]. now rewrite IH. }
  unfold slots. apply list_ext.
  - rewrite !map_length, zrange_length, Hl. unfold zlen. lia.
  - intros j Hj. rewrite map_length, zrange_length in Hj. unfold zlen in Hj.
    rewrite !nth_error_map, numbered_nth, zrange_nth by (unfold zlen; lia). cbn [option_map].
    pose proof (cel_at_pictures ps 0 j) as H. rewrite Z.add_0_l in *.
    change (cels_of ps) with (map (fun '(k, p) => picture_cel k p) (pictures_from 0 ps)). rewrite H.
    destruct (nth_error ps j) as [o|] eqn:E; [|apply nth_error_None in E; lia].
    cbn [option_map slot_of]. now destruct o.
Qed.

(** ** The parsed file *)
Definition slot_list (ps : list (option picture)) : list (option cel_chunk) :=
  map (fun '(k, o) => match o with Some p => Some (picture_cel k p) | None => None end) (numbered 0 ps).
Definition drawn_frame (f : Z * list (option picture)) : frame :=
  {| fr_duration := fst f; fr_cels := slot_list (snd f) |}.

Lemma drawing_layers d : dr_frames d <> [] ->
  spec_all_layers (drawing_raw d) = map layer_to_chunk (dr_layers d).
Proof.
  intros H. unfold spec_all_layers, drawing_raw. cbn [rw_frames].
  destruct (dr_frames d) as [|[ms ps] rest]; [congruence|]. cbn [flat_map rf_chunks].
  fold (layer_chunks (dr_layers d)). rewrite layers_of_first.
  assert (E : flat_map (fun fr => spec_layers (rf_chunks fr))
    (map (fun '(ms, ps) => {| rf_duration := ms; rf_chunks := cel_chunks ps |}) rest) = []).
  { clear H. induction rest as [|[m q] rest IH]; [reflexivity|]. cbn [map flat_map rf_chunks].
    rewrite layers_of_cels. exact IH. }
  now rewrite E, app_nil_r.
Qed.

Lemma drawing_frames d : wf_drawing d ->
  f_frames (file_of (drawing_raw d) (seen (dr_colours d))) = map drawn_frame (dr_frames d).
Proof.
  intros (_ & _ & _ & _ & _ & Hne & _ & HF & _). unfold file_of. cbn [f_frames].
  unfold layer_count. rewrite (drawing_layers d Hne).
  assert (Hn : forall ms ps, In (ms, ps) (dr_frames d) ->
            slots (zlen (map layer_to_chunk (dr_layers d))) (cels_of ps) = slot_list ps).
  { intros ms ps Hin. rewrite Forall_forall in HF. destruct (HF _ Hin) as (_ & Hz & _).
    unfold slot_list. rewrite <- slots_pictures. f_equal. unfold zlen in *. now rewrite map_length. }
  set (n := zlen (map layer_to_chunk (dr_layers d))) in *. clearbody n.
  unfold drawing_raw. cbn [rw_frames]. destruct (dr_frames d) as [|[ms ps] rest]; [congruence|].
  cbn [map rf_duration rf_chunks]. fold (layer_chunks (dr_layers d)). rewrite cels_of_first.
  unfold drawn_frame at 1. cbn [fst snd]. rewrite (Hn ms ps) by now left. f_equal.
  assert (Hr : forall m q, In (m, q) rest -> slots n (cels_of q) = slot_list q) by (intros; eapply Hn; right; eassumption).
  clear - Hr. induction rest as [|[m q] rest IH]; [reflexivity|]. cbn [map rf_duration rf_chunks].
  rewrite cels_of_cels, (Hr m q) by now left. f_equal. apply IH. intros; eapply Hr; right; eassumption.
Qed.

Lemma drawing_cels d : frame_cels (drawing_raw d) = flat_map (fun f => cels_of (snd f)) (dr_frames d).
Proof.
  unfold frame_cels, drawing_raw. cbn [rw_frames]. destruct (dr_frames d) as [|[ms ps] rest]; [reflexivity|].
  cbn [flat_map rf_chunks snd]. fold (layer_chunks (dr_layers d)). rewrite cels_of_first. f_equal.
  induction rest as [|[m q] rest IH]; [reflexivity|]. cbn [map flat_map rf_chunks snd].
  now rewrite cels_of_cels, IH.
Qed.

Lemma in_cels_of x ps : In x (cels_of ps) -> exists k p, nth_error ps k = Some (Some p) /\
  x = picture_cel (Z.of_nat k) p.
Proof.
  intros H. apply in_map_iff in H as ([k p] & <- & H). apply in_flat_map in H as ([k' o] & H & Hp).
  destruct o as [q|]; [|contradiction]. destruct Hp as [[= <- <-]|[]].
  apply In_nth_error in H as [j Hj]. rewrite numbered_nth in Hj.
  destruct (nth_error ps j) as [o|] eqn:E; [|discriminate]. injection Hj as <- ->. eauto.
Qed.

Lemma drawing_outcome d : wf_drawing d ->
  spec_outcome (drawing_raw d) = Ok (file_of (drawing_raw d) (seen (dr_colours d))).
Proof.
  intros Hd. pose proof Hd as (_ & _ & Hw & _ & _ & Hne & _ & HF & _). unfold spec_outcome.
  rewrite (drawing_palette d Hne Hw). cbv iota beta.
  destruct (find _ _) as [x|] eqn:E; [|reflexivity]. exfalso.
  apply find_some in E as [Hin Hb]. rewrite drawing_cels in Hin. apply in_flat_map in Hin as ([ms ps] & Hf & Hx).
  cbn [snd] in Hx. apply in_cels_of in Hx as (k & p & Hk & ->). unfold bad_cel, layer_count in Hb.
  rewrite (drawing_layers d Hne) in Hb. cbn [cc_layer_index picture_cel] in Hb. apply Z.leb_le in Hb.
  rewrite Forall_forall in HF. destruct (HF _ Hf) as (_ & Hz & _).
  assert (k < length ps)%nat by (apply nth_error_Some; congruence).
  unfold zlen in *. rewrite map_length in Hb. lia.
Qed.

(** ** The file is well formed *)
Lemma zlen_in {A} (f : A -> bytes) l a : In a l -> zlen (f a) <= zlen (flat_map f l).
Proof.
  induction l as [|b l IH]; [contradiction|]. intros [->|H]; unfold zlen in *; cbn [flat_map];
    rewrite app_length; [lia|]. specialize (IH H). lia.
Qed.
Lemma frame_fits f fr : In fr (rw_frames f) -> zlen (enc_raw_frame fr) <= zlen (enc_file f).
Proof.
  intros H. apply (zlen_in enc_raw_frame) in H. unfold enc_file, zlen in *. rewrite app_length. lia.
Qed.
Lemma chunk_fits fr x : In x (rf_chunks fr) -> zlen (enc_chunk x) <= zlen (enc_raw_frame fr).
Proof.
  intros H. apply (zlen_in enc_chunk) in H. unfold enc_raw_frame. cbv zeta. unfold zlen in *.
  rewrite !app_length. lia.
Qed.

Lemma stored_bytes_ok bs : storable bs -> is_bytes (zlib_stored bs).
Proof.
  intros [_ H]. unfold zlib_stored. apply Forall_app. split; [repeat constructor; unfold is_byte; lia|].
  apply Forall_app. split.
  - induction bs as [|x bs IH]; [constructor|]. inversion H as [|? ? [H1 H2] H3]; subst.
    rewrite stored_blocks_cons. constructor; [destruct bs; unfold is_byte; cbn; lia|].
    unfold stored_header. repeat (apply Forall_app; split); try apply is_bytes_le; auto.
  - apply Forall_rev. apply is_bytes_le.
Qed.

Lemma pixels_bytes bs : storable bs -> is_bytes (concat bs).
Proof. intros [_ H]. apply Forall_concat. eapply Forall_impl; [|exact H]. now intros ? []. Qed.

Lemma drawing_wf d : wf_drawing d -> wf_file (drawing_raw d).
Proof.
  intros (Hw & Hh & Hcol & HL & Hn & Hne & HN & HF & Hsz).
  assert (Hsmall : forall z, 0 <= z <= zlen (drawing_file d) -> u32 z).
  { intros z Hz. unfold u32, uint. cbn. lia. }
  assert (Hcel : forall ms ps, In (ms, ps) (dr_frames d) -> forall x, In x (cel_chunks ps) -> wf_payload x).
  { intros ms ps Hin x Hx. rewrite Forall_forall in HF. destruct (HF _ Hin) as (_ & Hz & HP).
    unfold cel_chunks in Hx. apply in_map_iff in Hx as ([k p] & <- & Hp).
    assert (Hk : exists j, nth_error ps j = Some (Some p) /\ k = Z.of_nat j).
    { apply in_flat_map in Hp as ([k' o] & H & Hp).
      destruct o as [q|]; [|contradiction]. destruct Hp as [[= <- <-]|[]].
      apply In_nth_error in H as [j Hj]. rewrite numbered_nth in Hj.
      destruct (nth_error ps j) as [o|] eqn:E; [|discriminate]. injection Hj as <- ->. eauto. }
    destruct Hk as (j & Hj & ->).
    assert (j < length ps)%nat by (apply nth_error_Some; congruence).
    rewrite Forall_forall in HP. specialize (HP _ (nth_error_In _ _ Hj)). cbn in HP.
    destruct HP as (P1 & P2 & P3 & P4 & P5 & P6).
    cbn. unfold wf_cel. cbn [cc_layer_index cc_x cc_y cc_opacity cc_z_index cc_content cc_user_data picture_cel].
    conjs; try assumption; try reflexivity.
    - unfold u16, uint, zlen in *. cbn in *. lia.
    - unfold u8, uint. cbn. lia.
    - unfold i16, sint. cbn. lia.
    - split; [exact P3|]. split; [exact P4|].
      cbn [im_data picture_image]. destruct (pic_compressed p); [now apply stored_bytes_ok|now apply pixels_bytes]. }
  assert (Hlay : forall x, In x (layer_chunks (dr_layers d)) -> wf_payload x).
  { intros x Hx. apply in_map_iff in Hx as (l & <- & Hl). rewrite Forall_forall in HL.
    destruct (HL _ Hl) as (L1 & L2 & L3 & L4). cbn. unfold wf_layer.
    cbn [lc_flags lc_layer_type lc_child_level lc_blend_mode lc_opacity lc_name lc_tileset_index lc_user_data layer_to_chunk].
    conjs; try assumption; try reflexivity.
    - destruct (ly_visible l); lia.
    - destruct (ly_visible l); lia.
    - destruct L4 as [-> | ->]; exact I.
    - unfold u16, uint. cbn. lia.
    - split; [|destruct L4 as [-> | ->]; discriminate]. intros []. }
  assert (Hpal : forall x, In x (palette_chunks_of (dr_colours d)) -> wf_payload x).
  { intros x Hx. destruct (dr_colours d) as [| |pal t]; try contradiction. destruct Hx as [<-|[]].
    destruct Hcol as (P1 & P2 & _). cbn [wf_payload]. unfold wf_palette. cbn [pc_entries pc_first pc_last].
    conjs; try lia.
    - unfold u32, uint, zlen in *. rewrite map_length. cbn. lia.
    - apply Forall_forall. intros e He. apply in_map_iff in He as (x & <- & Hx). rewrite Forall_forall in P2.
      split; [now apply P2|exact I]. }
  assert (Hfr : forall fr, In fr (rw_frames (drawing_raw d)) ->
    u16 (rf_duration fr) /\ forall x, In x (rf_chunks fr) -> wf_payload x).
  { intros fr Hin. unfold drawing_raw in Hin. cbn [rw_frames] in Hin.
    destruct (dr_frames d) as [|[ms ps] rest]; [contradiction|]. destruct Hin as [<-|Hin].
    - cbn [rf_duration rf_chunks]. inversion HF as [|? ? H0 _]; subst. destruct H0 as [H1 _]. split; [exact H1|].
      intros x Hx. apply in_app_iff in Hx as [Hx|Hx]; [now apply Hpal|].
      apply in_app_iff in Hx as [Hx|Hx]; [now apply Hlay|]. eapply Hcel; [now left|exact Hx].
    - apply in_map_iff in Hin as ([m q] & <- & Hin). cbn [rf_duration rf_chunks].
      rewrite Forall_forall in HF. destruct (HF (m, q)) as [H1 _]; [now right|]. split; [exact H1|].
      intros x Hx. eapply Hcel; [right; exact Hin|exact Hx]. }
  split; [|split].
  - unfold wf_header, drawing_raw. cbn [rw_header h_file_size h_frames h_width h_height h_color_depth h_flags
      h_speed h_transparent_index h_color_count h_pixel_width h_pixel_height h_grid_x h_grid_y h_grid_width h_grid_height].
    conjs; try assumption; try (destruct (dr_colours d); exact I);
      try (destruct (dr_colours d); [| |apply Hcol]); unfold u32, u16, u8, i16, uint, sint; cbn; lia.
  - unfold drawing_raw. cbn [rw_frames]. destruct (dr_frames d) as [|[ms ps] rest]; [congruence|discriminate].
  - apply Forall_forall. intros fr Hin. destruct (Hfr fr Hin) as [H1 H2].
    pose proof (frame_fits (drawing_raw d) fr Hin) as Hle. fold (drawing_file d) in Hle.
    split; [exact H1|]. split.
    + apply Forall_forall. intros x Hx. split; [now apply H2|]. apply Hsmall.
      pose proof (chunk_fits fr x Hx). unfold zlen in *. lia.
    + apply Hsmall. unfold zlen in *. lia.
Qed.

(** ** Loading *)
Lemma filled_slots ps : filled {| fr_duration := 0; fr_cels := slot_list ps |} = cels_of ps.
Proof.
  unfold filled, slot_list, cels_of, pictures. cbn [fr_cels].
  induction (numbered 0 ps) as [|[k o] l IH]; [reflexivity|]. cbn [map flat_map].
  rewrite IH. now destruct o.
Qed.

Lemma build_layer_back l : wf_sprite_layer l -> build_layer (layer_to_chunk l) = l.
Proof.
  intros _. destruct l as [name op bm [] ty]; reflexivity.
Qed.

Lemma Forall2_same_length {A B} (R : A -> B -> Prop) l l' : Forall2 R l l' -> length l = length l'.
Proof. induction 1; cbn; congruence. Qed.
Lemma Forall2_from_nth {A B} (R : A -> B -> Prop) l : forall l', length l = length l' ->
  (forall j a b, nth_error l j = Some a -> nth_error l' j = Some b -> R a b) -> Forall2 R l l'.
Proof.
  induction l as [|a l IH]; intros [|b l'] Hl H; try discriminate; constructor.
  - apply (H 0%nat); reflexivity.
  - apply IH; [now injection Hl|]. intros j a' b' Ha Hb. now apply (H (S j)).
Qed.

Lemma picture_rgba m p : wf_picture m p -> rgba_size (picture_image p) = zlen (as_rgba m (pic_pixels p)).
Proof.
  intros (_ & _ & P3 & P4 & _ & P6). unfold rgba_size. cbn [im_width im_height picture_image].
  set (area := fst (pic_size p) * snd (pic_size p)) in *.
  assert (Ha : 0 <= area) by (destruct P3, P4; unfold area; nia).
  destruct m as [| |pal t]; cbn [as_rgba pixel_length] in *.
  - lia.
  - rewrite (gray_length (Z.to_nat area)); lia.
  - rewrite flat_map_concat_map. clearbody area. revert area P6 Ha. induction (pic_pixels p) as [|k l IH]; intros area P6 Ha.
    + unfold zlen in *; cbn in *; lia.
    + cbn [map concat]. rewrite zlen_app, <- (IH (area - 1)); rewrite ?zlen_cons in *; pose proof (zlen_nonneg l); try lia.
      unfold zlen. cbn [length]. lia.
Qed.

Lemma seen_rgba pal t pixels : is_bytes pixels ->
  as_rgba (Palette pal t) pixels = index_rgba (map (colour pal t) (zrange 256)) pixels.
Proof.
  intro H. cbn [as_rgba]. unfold index_rgba. induction H as [|k l Hk H IH]; [reflexivity|]. cbn [flat_map]. rewrite IH.
  assert (E : nth (Z.to_nat k) (map (colour pal t) (zrange 256)) black = colour pal t k).
  { apply nth_error_nth. rewrite nth_error_map. unfold zrange. rewrite nth_error_map.
    assert (E : nth_error (seq 0 (Z.to_nat 256)) (Z.to_nat k) = Some (Z.to_nat k)).
    { rewrite (nth_error_nth' _ 0%nat) by (rewrite seq_length; unfold is_byte in Hk; lia).
      rewrite seq_nth by (unfold is_byte in Hk; lia). reflexivity. }
    rewrite E. cbn [option_map]. now rewrite Z2Nat.id by (unfold is_byte in Hk; lia). }
  now rewrite E.
Qed.
Lemma storable_bytes bs : storable bs -> is_bytes (concat bs).
Proof. intros [_ H]. induction H as [|x bs [_ Hx] H IH]; [constructor|]. cbn [concat]. apply Forall_app. now split. Qed.

Lemma drawing_loads c inflate d : cfg_ok c -> inflate_ok inflate -> reads_stored inflate -> wf_drawing d ->
  exists s, load c (drawing_file d) = Ok s /\ api_size s = dr_size d /\ api_layers s = dr_layers d /\
    Forall2 (fun f sf => sf_duration sf = fst f /\
               Forall2 (shows_picture c inflate s (dr_colours d)) (pictures (snd f)) (sf_cels sf))
            (dr_frames d) (api_frames s).
Proof.
  intros Hc Hinf Hread Hd. pose proof (drawing_wf d Hd) as Hwf.
  assert (Hadd : addressable c (drawing_file d)).
  { destruct Hd as (_ & _ & _ & _ & _ & _ & _ & _ & H). unfold addressable. destruct Hc as [-> | ->]; cbn in *; lia. }
  assert (Hbytes : is_bytes (drawing_file d)).
  { destruct (file_writes (kept_error c) _ Hwf). assumption. }
  assert (Hparse : parse_file c (drawing_file d) = Ok (file_of (drawing_raw d) (seen (dr_colours d)))).
  { rewrite parse_file_eq by assumption. unfold drawing_file.
    rewrite write_read by assumption. cbn [bind]. now apply drawing_outcome. }
  set (f := file_of (drawing_raw d) (seen (dr_colours d))) in *.
  assert (Hframes : f_frames f = map drawn_frame (dr_frames d)) by now apply drawing_frames.
  assert (Hex : exists s, load c (drawing_file d) = Ok s).
  { apply (build_fails c _ f Hc Hbytes Hadd Hparse). intros k fr l x Hk Hl.
    rewrite Hframes, nth_error_map in Hk. destruct (nth_error (dr_frames d) k) as [[ms ps]|]; [|discriminate].
    injection Hk as <-. cbn in Hl. unfold slot_list in Hl. rewrite nth_error_map in Hl.
    destruct (nth_error (numbered 0 ps) l) as [[k' [p|]]|]; try discriminate. injection Hl as <-. exact I. }
  destruct Hex as [s Hs]. exists s. split; [exact Hs|].
  apply load_ok in Hs as Hs'. destruct Hs' as [E Hb]. rewrite Hparse in E. injection E as E.
  pose proof (build_sprite_ok _ _ Hb) as (_ & El & _ & _ & HF). rewrite <- E in *.
  split; [|split].
  - unfold api_size. rewrite <- E. cbn. now destruct (dr_size d).
  - unfold api_layers. rewrite El. unfold f, file_of. cbn [f_layers].
    destruct Hd as (_ & _ & _ & HL & _ & Hne & _). rewrite (drawing_layers d Hne).
    unfold build_layers. clear - HL. induction HL as [|l ls Hl HL IH]; [reflexivity|]. cbn [map filter].
    assert (Hk : keep_layer (layer_to_chunk l) = true).
    { destruct Hl as (_ & _ & _ & [H|H]); unfold keep_layer; cbn; rewrite H; reflexivity. }
    rewrite Hk. cbn [map]. rewrite IH. f_equal. now apply build_layer_back.
  - unfold api_frames.
    assert (Hpt : forall k f0, nth_error (dr_frames d) k = Some f0 ->
      exists sf, nth_error (af_frames s) k = Some sf /\ sf_duration sf = fst f0 /\
        Forall2 (shows_picture c inflate s (dr_colours d)) (pictures (snd f0)) (sf_cels sf)).
    { intros k [ms ps] Hk.
      assert (Hfr : nth_error (f_frames (af_file s)) k = Some (drawn_frame (ms, ps))).
      { rewrite <- E, Hframes, nth_error_map, Hk. reflexivity. }
      destruct (loaded_frame' c _ s Hs k _ Hfr) as (sf & Hsf & Hdur & _ & Hcels).
      exists sf. split; [exact Hsf|]. split; [exact Hdur|].
      change (filled (drawn_frame (ms, ps))) with (filled {| fr_duration := 0; fr_cels := slot_list ps |}) in Hcels.
      rewrite filled_slots in Hcels. unfold cels_of in Hcels. cbn [snd].
      assert (Hj : forall j kp fc, nth_error (pictures ps) j = Some kp -> nth_error (sf_cels sf) j = Some fc ->
                shows_picture c inflate s (dr_colours d) kp fc).
      { intros j [k' p] fc Hj Hfc.
        assert (Hx : nth_error (map (fun '(k, p) => picture_cel k p) (pictures ps)) j = Some (picture_cel k' p))
          by (rewrite nth_error_map, Hj; reflexivity).
        destruct (Forall2_nth _ _ _ _ _ Hcels Hx) as (fc' & Hfc' & Hsh). rewrite Hfc in Hfc'. injection Hfc' as <-.
        assert (Hown : nth_error (af_images s) (Z.to_nat (fc_image_index fc)) = Some (picture_image p)).
        { eapply (image_cel_own c _ s Hc Hbytes Hadd Hs k _ sf j (picture_cel k' p)); eauto.
          change (filled (drawn_frame (ms, ps))) with (filled {| fr_duration := 0; fr_cels := slot_list ps |}).
          rewrite filled_slots. exact Hx. }
        destruct Hsh as (S1 & S2 & S3 & q & im & S4 & S5 & S6).
        split; [exact S2|]. split; [rewrite S1; cbn; now destruct (pic_origin p)|].
        assert (Him : im = picture_image p).
        { rewrite (loaded_images c _ s Hs), nth_error_map, S5 in Hown. cbn in Hown. now injection Hown. }
        split; [rewrite S6, Him; cbn; now destruct (pic_size p)|].
        intros target Hsz Hta.
        assert (Hp : wf_picture (dr_colours d) p).
        { destruct Hd as (_ & _ & _ & _ & _ & _ & _ & HFd & _). rewrite Forall_forall in HFd.
          destruct (HFd _ (nth_error_In _ _ Hk)) as (_ & _ & HP). rewrite Forall_forall in HP.
          apply nth_error_In in Hj. apply in_flat_map in Hj as ([k2 o] & H & Hp).
          destruct o as [q'|]; [|contradiction]. destruct Hp as [[= <- <-]|[]].
          apply In_nth_error in H as [j' Hj']. rewrite numbered_nth in Hj'.
          destruct (nth_error ps j') as [o|] eqn:Eo; [|discriminate]. injection Hj' as _ ->.
          exact (HP _ (nth_error_In _ _ Eo)). }
        pose proof (picture_rgba _ _ Hp) as Hrs. destruct Hp as (_ & _ & P3 & P4 & P5 & P6).
        assert (Hfit : sizes_fit c (picture_image p)).
        { split.
          - rewrite Hrs. unfold addressable in Hta. destruct Hc as [Eb|Eb]; rewrite Eb in *; cbn in *; lia.
          - assert (Hinx : infix (im_data (picture_image p)) (drawing_file d)).
            { apply (sprite_slices_infix c _ s Hc Hbytes Hadd Hs). unfold sprite_slices.
              rewrite !in_app_iff. do 3 right. apply in_map. eapply nth_error_In; exact Hown. }
            destruct Hinx as (a & b & Hab). destruct Hd as (_ & _ & _ & _ & _ & _ & _ & _ & Hlt).
            rewrite Hab in Hlt. unfold zlen in *. rewrite !app_length in Hlt.
            destruct Hc as [-> | ->]; cbn in *; lia. }
        assert (Hidx : fc_image_index fc = Z.of_nat (Z.to_nat (fc_image_index fc))) by lia.
        rewrite Hidx. apply (load_image_ok c _ s Hc Hbytes Hadd Hs inflate Hinf _ _ target Hown Hfit Hta).
        rewrite Hrs. split; [exact Hsz|]. exists (as_rgba (dr_colours d) (pic_pixels p)).
        unfold zlen at 2. rewrite Nat2Z.id. split; [|reflexivity].
        assert (Hst : forall old, zlen old = zlen (pic_pixels p) -> stored inflate (picture_image p) old (pic_pixels p)).
        { intros old Hold. unfold stored. cbn [im_compressed im_data picture_image].
          destruct (pic_compressed p); [|reflexivity]. exists (pic_pixels p). rewrite Hold. split; [apply (Hread _ P5)|].
          rewrite skipn_all2 by (unfold zlen in Hold; lia). now rewrite app_nil_r. }
        unfold decoded. rewrite <- E. change (h_color_depth (f_header f)) with (depth (dr_colours d)).
        cbn [im_width im_height picture_image] in *. set (area := fst (pic_size p) * snd (pic_size p)) in *.
        assert (Ha : 0 <= area) by (destruct P3, P4; unfold area; nia).
        destruct (dr_colours d) as [| |pal tr] eqn:Em; cbn [depth as_rgba pixel_length] in *.
        - split; [|now symmetry]. apply Hst. unfold zlen. rewrite firstn_length. unfold zlen in *. lia.
        - exists (pic_pixels p). split; [apply Hst; unfold zlen at 1; rewrite repeat_length; lia|].
          split; [lia|reflexivity].
        - exists (pic_pixels p), (map (colour pal tr) (zrange 256)).
          split; [apply Hst; unfold zlen at 1; rewrite repeat_length; lia|].
          split; [reflexivity|]. split; [lia|]. apply seen_rgba. apply storable_bytes. exact P5. }
      apply Forall2_from_nth; [|exact Hj]. apply Forall2_same_length in Hcels. now rewrite map_length in Hcels. }
    apply Forall2_from_nth.
    + apply Forall2_same_length in HF. rewrite <- HF, numbered_length, Hframes, map_length. reflexivity.
    + intros j a b Hja Hjb. destruct (Hpt j a Hja) as (sf & Hsf & H1 & H2). rewrite Hjb in Hsf.
      injection Hsf as <-. auto.
Qed.
