(** The hash of [combined_frame_image] with std's hasher. *)
From Verif.Model Require Import Hasher.
From Verif.Spec Require Import Bytes Format FileSpec LoaderSpec ImageSpec RenderSpec Size Hash.
From Verif.Proofs Require Import ParseLib BinaryFinal RawFacts FileFacts FileProps LoaderFacts LoaderProps FileFinal SizeProps SlicesFacts ImageProps RenderProps.
From Verif.Tests Require Import Configs Build.

(** ** The result is a [u64] *)
Definition word (z : Z) : Prop := 0 <= z < 2 ^ 64.
Lemma word_log z : 0 <= z -> Z.log2 z < 64 -> word z.
Proof.
  intros H0 H. split; [exact H0|]. destruct (Z.eq_dec z 0) as [->|N]; [reflexivity|]. apply Z.log2_lt_pow2; lia.
Qed.
Lemma log_word z : word z -> Z.log2 z < 64.
Proof.
  intros [H0 H]. destruct (Z.eq_dec z 0) as [->|N]; [reflexivity|]. apply Z.log2_lt_pow2; lia.
Qed.
Lemma lxor_word a b : word a -> word b -> word (Z.lxor a b).
Proof.
  intros Ha Hb. apply word_log; [apply Z.lxor_nonneg; unfold word in *; lia|].
  pose proof (Z.log2_lxor a b (proj1 Ha) (proj1 Hb)). pose proof (log_word a Ha). pose proof (log_word b Hb). lia.
Qed.
Lemma lor_word a b : word a -> word b -> word (Z.lor a b).
Proof.
  intros Ha Hb. apply word_log; [apply Z.lor_nonneg; unfold word in *; lia|].
  rewrite Z.log2_lor by apply Ha || apply Hb. pose proof (log_word a Ha). pose proof (log_word b Hb). lia.
Qed.
Lemma add_word a b : word (add64 a b).
Proof. apply Z.mod_pos_bound. reflexivity. Qed.
Lemma rotl_word a n : 0 <= n <= 64 -> word a -> word (rotl64 a n).
Proof.
  intros Hn [H0 H]. apply lor_word; [apply Z.mod_pos_bound; reflexivity|]. rewrite Z.shiftr_div_pow2 by lia.
  assert (0 < 2 ^ (64 - n)) by (apply Z.pow_pos_nonneg; lia). split; [apply Z.div_pos; lia|].
  apply Z.le_lt_trans with a; [|exact H]. apply Z.div_le_upper_bound; nia.
Qed.
Definition words (s : sip) : Prop := word (v0 s) /\ word (v1 s) /\ word (v2 s) /\ word (v3 s).
Lemma round_words s : words s -> words (sip_round s).
Proof.
  intros (H0 & H1 & H2 & H3). unfold sip_round, words. cbn [v0 v1 v2 v3].
  refine (conj _ (conj _ (conj _ _))); repeat first [apply add_word | apply lxor_word | apply rotl_word; [lia|] | assumption].
Qed.
Lemma word_words s m : words s -> word m -> words (sip_word s m).
Proof.
  intros (H0 & H1 & H2 & H3) Hm. unfold sip_word.
  pose proof (round_words {| v0 := v0 s; v1 := v1 s; v2 := v2 s; v3 := Z.lxor (v3 s) m |}) as (R0 & R1 & R2 & R3).
  { unfold words. cbn [v0 v1 v2 v3]. refine (conj _ (conj _ (conj _ _))); try assumption. now apply lxor_word. }
  unfold words. cbn [v0 v1 v2 v3]. refine (conj _ (conj _ (conj _ _))); try assumption. now apply lxor_word.
Qed.
Lemma sip_words_words len : forall n l s, (length l <= n)%nat -> is_bytes l -> words s -> words (sip_words s len l).
Proof.
  assert (Hlast : forall l s, (length l < 8)%nat -> is_bytes l -> words s -> words (sip_word s (le_value l + len mod 256 * 2 ^ 56))).
  { intros l s Hl Hb Hs. apply word_words; [exact Hs|]. pose proof (le_value_range l Hb) as [U0 U1].
    assert (256 ^ Z.of_nat (length l) <= 256 ^ 7) by (apply Z.pow_le_mono_r; lia).
    change (256 ^ 7) with (2 ^ 56) in *. pose proof (Z.mod_pos_bound len 256 eq_refl). unfold word.
    change (2 ^ 64) with (256 * 2 ^ 56). nia. }
  induction n as [|n IH]; intros l s Hl Hb Hs.
  { destruct l; [|cbn in Hl; lia]. apply (Hlast []); [cbn; lia|constructor|exact Hs]. }
  destruct l as [|a [|b [|d [|e [|f [|g [|h [|k l]]]]]]]]; try (apply Hlast; [cbn [length]; lia|exact Hb|exact Hs]).
  cbn [sip_words]. change (a :: b :: d :: e :: f :: g :: h :: k :: l) with ([a; b; d; e; f; g; h; k] ++ l) in Hb.
  apply is_bytes_app in Hb. destruct Hb as [B1 B2].
  apply IH; [cbn [length] in Hl; lia|exact B2|]. apply word_words; [exact Hs|].
  exact (le_value_range [a; b; d; e; f; g; h; k] B1).
Qed.
Lemma siphash_range k0 k1 l : word k0 -> word k1 -> is_bytes l -> 0 <= siphash13 k0 k1 l < 2 ^ 64.
Proof.
  intros H0 H1 Hb. unfold siphash13.
  set (s := {| v0 := Z.lxor k0 _; v1 := Z.lxor k1 _; v2 := _; v3 := _ |}).
  assert (Hs : words s).
  { unfold words, s. cbn [v0 v1 v2 v3]. refine (conj _ (conj _ (conj _ _))); (apply lxor_word; [assumption|split; reflexivity || discriminate]). }
  pose proof (sip_words_words (zlen l) (length l) l s (Nat.le_refl _) Hb Hs) as (W0 & W1 & W2 & W3).
  set (t := {| v0 := v0 (sip_words s (zlen l) l); v1 := _; v2 := _; v3 := _ |}).
  assert (Ht : words t).
  { unfold words, t. cbn [v0 v1 v2 v3]. refine (conj _ (conj _ (conj _ _))); try assumption. apply lxor_word; [exact W2|split; reflexivity || discriminate]. }
  destruct (round_words _ (round_words _ (round_words _ Ht))) as (R0 & R1 & R2 & R3).
  apply lxor_word; apply lxor_word; assumption.
Qed.

(** ** What is hashed *)
Lemma to_le n z : to_le_bytes n z = le n z.
Proof. revert z. induction n as [|n IH]; intro z; cbn [to_le_bytes le]; [reflexivity|]. now rewrite IH. Qed.
Lemma le_mod n : forall z, le n (z mod 256 ^ Z.of_nat n) = le n z.
Proof.
  induction n as [|n IH]; intro z; [reflexivity|]. cbn [le]. rewrite pow256_succ. pose proof (pow256_pos n) as P.
  rewrite (Z.rem_mul_r z 256 (256 ^ Z.of_nat n)) by lia.
  rewrite <- (IH (z / 256)). set (q := (z / 256) mod _).
  assert (E : z mod 256 + 256 * q = z mod 256 + q * 256) by lia. rewrite E.
  rewrite Z.mod_add, Z.div_add, Z.mod_mod by lia. rewrite Z.div_small by (apply Z.mod_pos_bound; lia). reflexivity.
Qed.
Lemma hashed_bytes c x : flat_map (hwrite_bytes c) (hash_cel x) = cel_record (Z.to_nat (usize_bits c / 8)) x.
Proof.
  unfold hash_cel, cel_record, les. cbn [flat_map hwrite_bytes]. rewrite !to_le, !le_mod, app_nil_r. reflexivity.
Qed.
Lemma default_hash c sf : default_hasher c (flat_map hash_cel (sf_cels sf)) = siphash13 0 0 (frame_record c sf).
Proof.
  unfold default_hasher, frame_record. f_equal. induction (sf_cels sf) as [|x l IH]; [reflexivity|].
  cbn [flat_map]. rewrite flat_map_app, hashed_bytes, IH. reflexivity.
Qed.

Lemma frame_record_bytes c sf : is_bytes (frame_record c sf).
Proof.
  unfold frame_record. induction (sf_cels sf) as [|x l IH]; [constructor|]. cbn [flat_map]. apply is_bytes_app. split; [|exact IH].
  unfold cel_record. repeat (apply is_bytes_app; split; [apply is_bytes_le|]). apply is_bytes_le.
Qed.

Lemma combined_hash c inflate s k sf target : nth_error (api_frames s) k = Some sf ->
  combined_frame_image c inflate (default_hasher c) s (Z.of_nat k) target =
  match render_frame c inflate s (Z.of_nat k) target SelVisible with
  | Ok r => Ok (r, siphash13 0 0 (frame_record c sf))
  | Err e => Err e
  | Panic q => Panic q
  end /\ 0 <= siphash13 0 0 (frame_record c sf) < 2 ^ 64.
Proof.
  intro Hk. split; [|apply siphash_range; [split; reflexivity || discriminate..|apply frame_record_bytes]].
  unfold combined_frame_image. destruct (render_frame _ _ _ _ _ _) as [r| |]; cbn [bind]; try reflexivity.
  rewrite (get_index_ok _ (Z.of_nat k) sf) by (rewrite ?Nat2Z.id; (assumption || lia)). cbn [bind]. now rewrite default_hash.
Qed.

(** ** There are not more images than bytes *)
Lemma flat_map_len {A B} (f : A -> list B) n l : (forall x, In x l -> zlen (f x) <= n x) -> zlen (flat_map f l) <= total n l.
Proof.
  induction l as [|x l IH]; intro H; [reflexivity|]. cbn [flat_map]. rewrite zlen_app, total_cons.
  pose proof (H x (or_introl eq_refl)). assert (zlen (flat_map f l) <= total n l) by (apply IH; intros; apply H; now right). lia.
Qed.
Lemma total_le {A} (n m : A -> Z) l : (forall x, In x l -> n x <= m x) -> total n l <= total m l.
Proof.
  induction l as [|x l IH]; intro H; [reflexivity|]. rewrite !total_cons. pose proof (H x (or_introl eq_refl)).
  assert (total n l <= total m l) by (apply IH; intros; apply H; now right). lia.
Qed.
Lemma spec_cels_len cs : zlen (spec_cels cs) <= zlen cs.
Proof.
  unfold spec_cels. induction cs as [|x cs IH]; [reflexivity|]. cbn [suffixes flat_map]. rewrite zlen_app, zlen_cons.
  assert (zlen (match x with ChCel y => [cel_with y (own cs)] | _ => [] end) <= 1) by (destruct x; cbn; discriminate). lia.
Qed.
Lemma filled_len n cs d : zlen (filled {| fr_duration := d; fr_cels := slots n cs |}) <= zlen cs.
Proof.
  unfold zlen. apply inj_le. apply NoDup_incl_length.
  - apply (NoDup_map_inv cc_layer_index). unfold filled. cbn [fr_cels]. apply (filled_keys _ 0).
    intros j x Hj. rewrite Z.add_0_l.
    assert (Hl : (j < length (slots n cs))%nat) by (apply nth_error_Some; congruence).
    unfold slots in Hl. rewrite map_length, zrange_length in Hl. rewrite slots_nth in Hj by exact Hl.
    injection Hj as Hj. apply cel_at_some in Hj as (a & b & _ & Hx & _). exact Hx.
  - intros x Hx. apply in_flat_map in Hx as (o & Ho & Hx). destruct o as [x'|]; [|destruct Hx]. destruct Hx as [->|[]].
    cbn [fr_cels] in Ho. apply in_map_iff in Ho as (k & Hk & _). apply cel_at_some in Hk as (a & b & -> & _).
    apply in_or_app. right. now left.
Qed.
Lemma numbered_total {A} (n : A -> Z) l : forall k, total (fun '(_, x) => n x) (numbered k l) = total n l.
Proof. induction l as [|x l IH]; intro k; [reflexivity|]. cbn [numbered]. rewrite !total_cons, IH. reflexivity. Qed.

Lemma frame_chunks me f e : frame_l me f e -> zlen (rf_chunks f) <= zlen e.
Proof.
  intros (old & new & i1 & body & i2 & _ & _ & _ & _ & _ & _ & H & ->).
  apply seq_count in H; [|intros x d (p & _ & _ & ->); rewrite !zlen_app, !zlen_le; pose proof (zlen_nonneg p); lia].
  rewrite !zlen_app, !zlen_le. pose proof (zlen_nonneg i1). pose proof (zlen_nonneg i2). lia.
Qed.
Lemma raw_chunks me f e : raw_file_l me f e -> total (fun fr => zlen (rf_chunks fr)) (rw_frames f) <= zlen e.
Proof.
  intros (e1 & e2 & H1 & _ & H2 & ->). rewrite zlen_app. pose proof (zlen_nonneg e1).
  apply (seq_total _ _ _ _ (frame_chunks me)) in H2. lia.
Qed.

Section Loaded.
Context (c : cfg) (i : bytes) (s : ase_file).
Context (Hc : cfg_ok c) (Hi : is_bytes i) (Ha : addressable c i) (Hload : load c i = Ok s).

Lemma image_count_len : zlen (af_images s) <= zlen i.
Proof.
  pose proof (loaded_parse c i s Hload) as Hp. rewrite (loaded_images c i s Hload).
  unfold zlen at 1. rewrite map_length. fold (zlen (image_cels (f_frames (af_file s)))).
  destruct (parse_file_ok c i _ Hc Hi Ha Hp) as (raw & pal & Hr & _ & _ & Ef & _).
  apply raw_chunks in Hr. rewrite Ef. cbn [file_of f_frames]. set (fs := map _ (rw_frames raw)).
  assert (H1 : zlen (image_cels fs) <= total (fun _ => 1) (file_cels fs)).
  { apply flat_map_len. intros [k x] _. destruct (cc_content x); cbn; lia. }
  rewrite (total_const _ 1) in H1 by reflexivity.
  assert (H3 : zlen (file_cels fs) <= total (fun '(_, fr) => zlen (filled fr)) (numbered 0 fs)).
  { apply flat_map_len. intros [k fr] _. unfold zlen. rewrite map_length. lia. }
  rewrite numbered_total in H3.
  assert (H4 : total (fun fr => zlen (filled fr)) fs <= total (fun fr => zlen (rf_chunks fr)) (rw_frames raw)).
  { unfold fs. generalize (layer_count raw). clear. intro n. induction (rw_frames raw) as [|fr l IH]; [reflexivity|]. cbn [map]. rewrite !total_cons.
    pose proof (filled_len n (spec_cels (rf_chunks fr)) (rf_duration fr)). pose proof (spec_cels_len (rf_chunks fr)). lia. }
  lia.
Qed.

Lemma cel_ranges k sf x : nth_error (api_frames s) k = Some sf -> In x (sf_cels sf) ->
  0 <= fc_image_index x < 256 ^ (usize_bits c / 8) /\ 0 <= fc_layer_index x < 65536 /\
  -32768 <= fst (fc_origin x) < 32768 /\ -32768 <= snd (fc_origin x) < 32768 /\
  0 <= fst (fc_size x) < 65536 /\ 0 <= snd (fc_size x) < 65536.
Proof.
  intros Hk Hx. destruct (cels_shown c i s k sf Hc Hi Ha Hload Hk) as (fr & Hfr & HF & HI).
  destruct (HI x Hx) as (Hn & im & Hj & Es). destruct (image_facts c i s Hc Hi Ha Hload im (nth_error_In _ _ Hj)) as (W & H & _).
  rewrite Es. cbn [fst snd]. split.
  { pose proof image_count_len as HL. unfold api_image_count in Hn. pose proof Ha as HA. unfold addressable in HA. clear -Hn HL HA Hc.
    destruct Hc as [E|E]; rewrite E in HA |- *; [change (256 ^ (32 / 8)) with (2 * 2 ^ (32 - 1))|change (256 ^ (64 / 8)) with (2 * 2 ^ (64 - 1))]; lia. }
  assert (exists y, In y (filled fr) /\ fc_origin x = (cc_x y, cc_y y) /\ fc_layer_index x = cc_layer_index y) as (y & Hy & -> & ->).
  { clear -HF Hx. induction HF as [|y fc ys fcs E HF IH]; [destruct Hx|]. destruct Hx as [->|Hx].
    - exists y. split; [now left|exact E].
    - destruct (IH Hx) as (z & Hz & E'). exists z. split; [now right|exact E']. }
  pose proof (loaded_parse c i s Hload) as Hp. destruct (parse_file_ok c i _ Hc Hi Ha Hp) as (raw & pal & _ & Hr & _ & Ef & _).
  rewrite Ef in Hfr. cbn [file_of f_frames] in Hfr. apply nth_error_In in Hfr. apply in_map_iff in Hfr as (rf & <- & Hrf).
  apply in_flat_map in Hy as (o & Ho & Hy). destruct o as [y'|]; [|destruct Hy]. destruct Hy as [->|[]].
  cbn [fr_cels] in Ho. apply in_map_iff in Ho as (k' & Hk' & _). apply cel_at_some in Hk' as (a & b & Hk' & _).
  assert (Hin : In y (spec_cels (rf_chunks rf))) by (rewrite Hk'; apply in_or_app; right; now left).
  apply spec_cels_in in Hin as (x0 & r & a0 & Hcs & ->).
  destruct (raw_payloads c i raw Hc Hi Ha Hr) as (_ & _ & HP). rewrite Forall_forall in HP. destruct (HP rf Hrf) as [_ HP'].
  rewrite Hcs in HP'. apply Forall_app in HP' as [_ HP']. inversion HP' as [|? ? [d Hd] _]; subst.
  destruct Hd as (ty & ig & body & H1 & H2 & H3 & _). cbn [fst snd].
  change (cc_x (cel_with x0 (own r))) with (cc_x x0). change (cc_y (cel_with x0 (own r))) with (cc_y x0).
  change (cc_layer_index (cel_with x0 (own r))) with (cc_layer_index x0).
  unfold u16, i16, uint, sint in *. cbn in H1, H2, H3. lia.
Qed.
End Loaded.

Lemma app_split {A} (a b a' b' : list A) : length a = length a' -> a ++ b = a' ++ b' -> a = a' /\ b = b'.
Proof.
  revert a'. induction a as [|x a IH]; intros [|y a'] L H; try discriminate; [auto|].
  injection H as -> H. injection L as L. destruct (IH a' L H) as [-> ->]. auto.
Qed.
Lemma le_inj n a b : uint n a -> uint n b -> le n a = le n b -> a = b.
Proof. intros Ha Hb H. rewrite <- (le_value_le n a Ha), <- (le_value_le n b Hb). now rewrite H. Qed.
Lemma les_inj a b : -32768 <= a < 32768 -> -32768 <= b < 32768 -> les 2 a = les 2 b -> a = b.
Proof.
  intros Ha Hb H. unfold les in H. change (256 ^ Z.of_nat 2) with 65536 in H.
  apply le_inj in H; [|unfold uint; change (256 ^ Z.of_nat 2) with 65536; apply Z.mod_pos_bound; reflexivity..]. lia.
Qed.
Lemma record_length w x : length (cel_record w x) = (w + (w + 8))%nat.
Proof. unfold cel_record. rewrite !app_length, !length_le, !length_les. lia. Qed.

Lemma record_inj c i s : cfg_ok c -> is_bytes i -> addressable c i -> load c i = Ok s ->
  forall k k' sf sf', nth_error (api_frames s) k = Some sf -> nth_error (api_frames s) k' = Some sf' ->
  frame_record c sf = frame_record c sf' <-> sf_cels sf = sf_cels sf'.
Proof.
  intros Hc Hi Ha Hl k k' sf sf' Hk Hk'. split; [|unfold frame_record; now intros ->].
  pose proof (fun x => cel_ranges c i s Hc Hi Ha Hl k sf x Hk) as R. pose proof (fun x => cel_ranges c i s Hc Hi Ha Hl k' sf' x Hk') as R'.
  unfold frame_record. clear Hk Hk'. set (w := Z.to_nat (usize_bits c / 8)).
  assert (Hw : Z.of_nat w = usize_bits c / 8 /\ 65536 <= 256 ^ Z.of_nat w /\ (2 <= w)%nat).
  { unfold w. destruct Hc as [E|E]; rewrite E; (split; [reflexivity|]; split; [discriminate|apply Nat.leb_le; reflexivity]). }
  destruct Hw as (Hw & HW & HM). rewrite <- Hw in R, R'. clearbody w. clear -R R' HW HM.
  revert R'. generalize (sf_cels sf'). induction (sf_cels sf) as [|x l IH]; intros [|y l'] R' H; cbn [flat_map] in H.
  - reflexivity.
  - exfalso. apply (f_equal (@length Z)) in H. rewrite app_length, record_length in H. cbn in H. lia.
  - exfalso. apply (f_equal (@length Z)) in H. rewrite app_length, record_length in H. cbn in H. lia.
  - apply app_split in H; [|now rewrite !record_length]. destruct H as [H1 H2].
    f_equal; [|apply IH; [intros z Hz; apply R; now right|intros z Hz; apply R'; now right|exact H2]].
    destruct (R x (or_introl eq_refl)) as (A1 & A2 & A3 & A4 & A5 & A6). destruct (R' y (or_introl eq_refl)) as (B1 & B2 & B3 & B4 & B5 & B6).
    unfold cel_record in H1.
    apply app_split in H1; [|now rewrite !length_le]. destruct H1 as [E1 H1]. apply app_split in H1; [|now rewrite !length_le]. destruct H1 as [E2 H1].
    apply app_split in H1; [|now rewrite !length_les]. destruct H1 as [E3 H1]. apply app_split in H1; [|now rewrite !length_les]. destruct H1 as [E4 H1].
    apply app_split in H1; [|now rewrite !length_le]. destruct H1 as [E5 E6].
    apply le_inj in E1; [|exact A1|exact B1]. apply le_inj in E2; [|unfold uint; lia..]. apply les_inj in E3; [|assumption..]. apply les_inj in E4; [|assumption..].
    apply le_inj in E5; [|assumption..]. apply le_inj in E6; [|assumption..].
    destruct x as [[ox oy] [xw xh] li ii], y as [[ox' oy'] [yw yh] li' ii']. cbn in *. congruence.
Qed.

(** The same cels are the same picture, for all selections. *)
Lemma same_record c i s : cfg_ok c -> is_bytes i -> addressable c i -> load c i = Ok s ->
  forall k k' sf sf', nth_error (api_frames s) k = Some sf -> nth_error (api_frames s) k' = Some sf' ->
  frame_record c sf = frame_record c sf' ->
  forall inflate target sel, render_frame c inflate s (Z.of_nat k) target sel = render_frame c inflate s (Z.of_nat k') target sel.
Proof.
  intros Hc Hi Ha Hl k k' sf sf' Hk Hk' H inflate target sel. apply (record_inj c i s Hc Hi Ha Hl k k' sf sf' Hk Hk') in H.
  unfold render_frame. destruct (usizec c _) as [n| |]; cbn [bind]; try reflexivity. destruct (usizec c _) as [m| |]; cbn [bind]; try reflexivity.
  destruct (_ <? _); [reflexivity|].
  rewrite (get_index_ok _ (Z.of_nat k) sf) by (rewrite ?Nat2Z.id; (assumption || lia)).
  rewrite (get_index_ok _ (Z.of_nat k') sf') by (rewrite ?Nat2Z.id; (assumption || lia)). cbn [bind]. now rewrite H.
Qed.

(** ** Refuted *)
Definition twice_file : bytes :=
  hdr 2 32 1 1 ++ frm [layer_ch 1 0 0 255 [97]; raw_cel_ch 0 0 0 255 1 1 [1; 2; 3; 4]] ++ frm [raw_cel_ch 0 0 0 255 1 1 [1; 2; 3; 4]].
Lemma same_look_other_hash c inflate : cfg_ok c ->
  exists i s h h', is_bytes i /\ addressable c i /\ load c i = Ok s /\
    (forall target sel, render_frame c inflate s 0 target sel = render_frame c inflate s 1 target sel) /\
    combined_frame_image c inflate (default_hasher c) s 0 [0; 0; 0; 0] = Ok ([1; 2; 3; 4], h) /\
    combined_frame_image c inflate (default_hasher c) s 1 [0; 0; 0; 0] = Ok ([1; 2; 3; 4], h') /\ h <> h'.
Proof.
  intro Hc. assert (H : exists s sf sf' h h', load c twice_file = Ok s /\ addressable c twice_file /\
    nth_error (api_frames s) 0 = Some sf /\ nth_error (api_frames s) 1 = Some sf' /\
    (forall sel, shown s sel (sf_cels sf) = shown s sel (sf_cels sf')) /\
    combined_frame_image c inflate (default_hasher c) s 0 [0; 0; 0; 0] = Ok ([1; 2; 3; 4], h) /\
    combined_frame_image c inflate (default_hasher c) s 1 [0; 0; 0; 0] = Ok ([1; 2; 3; 4], h') /\ h <> h').
  { revert c Hc. apply cfg_cases; (do 5 eexists; split; [vm_compute; reflexivity|]; split; [vm_compute; reflexivity|];
      split; [reflexivity|]; split; [reflexivity|]; split; [intros [| |mask]; reflexivity|];
      split; [vm_compute; reflexivity|]; split; [vm_compute; reflexivity|discriminate]). }
  destruct H as (s & sf & sf' & h & h' & Hl & Ha & Hk & Hk' & Hsh & E & E' & N).
  assert (Hi : is_bytes twice_file) by (apply bytes_by_compute; reflexivity).
  exists twice_file, s, h, h'. split; [exact Hi|]. split; [exact Ha|]. split; [exact Hl|]. split; [|auto].
  intros target sel. apply (same_picture c twice_file s twice_file s Hc Hi Ha Hl Hi Ha Hl) with (sf := sf) (sf' := sf') (k := 0%nat) (k' := 1%nat);
    try assumption; try reflexivity; [now split|apply Hsh].
Qed.

Definition one_pixel (p : bytes) : bytes := hdr 1 32 1 1 ++ frm [layer_ch 1 0 0 255 [97]; raw_cel_ch 0 0 0 255 1 1 p].
Lemma other_look_same_hash c inflate hasher : cfg_ok c ->
  exists i i' s s' h, is_bytes i /\ addressable c i /\ load c i = Ok s /\ is_bytes i' /\ addressable c i' /\ load c i' = Ok s' /\
    combined_frame_image c inflate hasher s 0 [0; 0; 0; 0] = Ok ([1; 2; 3; 4], h) /\
    combined_frame_image c inflate hasher s' 0 [0; 0; 0; 0] = Ok ([5; 6; 7; 8], h).
Proof.
  revert c. apply cfg_cases; (exists (one_pixel [1; 2; 3; 4]), (one_pixel [5; 6; 7; 8]); do 3 eexists;
    split; [apply bytes_by_compute; reflexivity|]; split; [vm_compute; reflexivity|]; split; [vm_compute; reflexivity|];
    split; [apply bytes_by_compute; reflexivity|]; split; [vm_compute; reflexivity|]; split; [vm_compute; reflexivity|];
    split; [vm_compute; reflexivity|vm_compute; reflexivity]).
Qed.

Lemma other_width_other_hash b inflate :
  let c w := {| debug := b; usize_bits := w |} in
  exists i s h h', is_bytes i /\ addressable (c 32) i /\ load (c 32) i = Ok s /\ load (c 64) i = Ok s /\
    combined_frame_image (c 32) inflate (default_hasher (c 32)) s 0 [0; 0; 0; 0] = Ok ([1; 2; 3; 4], h) /\
    combined_frame_image (c 64) inflate (default_hasher (c 64)) s 0 [0; 0; 0; 0] = Ok ([1; 2; 3; 4], h') /\ h <> h'.
Proof.
  cbv zeta. exists (one_pixel [1; 2; 3; 4]). destruct b; (do 3 eexists; split; [apply bytes_by_compute; reflexivity|];
    split; [vm_compute; reflexivity|]; split; [vm_compute; reflexivity|]; split; [vm_compute; reflexivity|];
    split; [vm_compute; reflexivity|]; split; [vm_compute; reflexivity|discriminate]).
Qed.
