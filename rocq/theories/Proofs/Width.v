(** Pointer widths: loading a file gives the same result on 32 and 64 bit targets. *)
From Verif.Model Require Import Loader.
From Verif.Spec Require Import Bytes Format FileSpec ImageSpec RenderSpec.
From Verif.Proofs Require Import ParseLib ChunkFacts ChunkFacts2 UserDataFacts RawFacts Safety FileFacts FileProps LoaderFacts
  LoaderProps ImageProps RenderFacts RenderProps.

(** Inputs that exist on both. *)
Definition fine (i : bytes) : Prop := is_bytes i /\ zlen i < 2 ^ 31.

Lemma fine_suffix a b : fine (a ++ b) -> fine b.
Proof.
  intros [Hb Hl]. split; [apply (is_bytes_app_r a); exact Hb|].
  rewrite zlen_app in Hl. pose proof (zlen_nonneg a). lia.
Qed.
Lemma fine_prefix a b : fine (a ++ b) -> fine a.
Proof.
  intros [Hb Hl]. split; [apply (is_bytes_app_l a b); exact Hb|].
  rewrite zlen_app in Hl. pose proof (zlen_nonneg b). lia.
Qed.

Definition rests {A} (p : parser A) : Prop := forall i r a, fine i -> p i = Ok (r, a) -> fine r.
Definition same {A} (p p' : parser A) : Prop := forall i, fine i -> p i = p' i.

Lemma sound_rests {A} (p : parser A) L : sound p L -> rests p.
Proof. intros Hs i r a Hi Hp. destruct (Hs i r a (proj1 Hi) Hp) as (e & -> & _). exact (fine_suffix _ _ Hi). Qed.
Lemma take_rests n : rests (take n).
Proof. intros i r s Hi Ht. apply take_suffix in Ht. subst i. exact (fine_suffix _ _ Hi). Qed.
Lemma take_fine n i r s : fine i -> take n i = Ok (r, s) -> fine s /\ fine r.
Proof. intros Hi Ht. apply take_suffix in Ht. subst i. exact (conj (fine_prefix _ _ Hi) (fine_suffix _ _ Hi)). Qed.

Lemma same_bind {A B} (p p' : parser A) (k k' : bytes * A -> out nom_err B) i :
  same p p' -> rests p -> fine i ->
  (forall r a, fine r -> p i = Ok (r, a) -> k (r, a) = k' (r, a)) -> bind (p i) k = bind (p' i) k'.
Proof.
  intros Hs Hr Hi Hk. rewrite <- (Hs i Hi). destruct (p i) as [[r a]|e|q] eqn:Hp; cbn [bind]; try reflexivity.
  apply Hk; [exact (Hr i r a Hi Hp)|reflexivity].
Qed.
Lemma same_pmap {A B} (p p' : parser A) (f : A -> B) : same p p' -> same (pmap p f) (pmap p' f).
Proof. intros Hs i Hi. unfold pmap. rewrite (Hs i Hi). reflexivity. Qed.
Lemma same_cond {A} b (p p' : parser A) : same p p' -> same (cond b p) (cond b p').
Proof. intros Hs i Hi. unfold cond. destruct b; [apply same_pmap; assumption|reflexivity]. Qed.
Lemma same_count {A} (p p' : parser A) n : same p p' -> rests p -> same (count p n) (count p' n).
Proof.
  intros Hs Hr. unfold count. induction (Z.to_nat n) as [|k IH]; intros i Hi; [reflexivity|]. cbn [count_nat].
  apply same_bind; try assumption. intros r a Hf _. rewrite (IH r Hf). reflexivity.
Qed.
Lemma count_rests {A} (p : parser A) n : rests p -> rests (count p n).
Proof.
  intros Hr. unfold count. induction (Z.to_nat n) as [|k IH]; intros i r l Hi H; cbn [count_nat] in H.
  - inversion H. subst. exact Hi.
  - destruct (p i) as [[r1 a]|e|q] eqn:Hp; cbn [bind] in H; try discriminate.
    destruct (count_nat p k r1) as [[r2 l2]|e|q] eqn:Hc; cbn [bind] in H; try discriminate.
    inversion H. subst. exact (IH r1 r l2 (Hr _ _ _ Hi Hp) Hc).
Qed.

Section Widths.
Variable b : bool.
Let c : cfg := {| debug := b; usize_bits := 32 |}.
Let c' : cfg := {| debug := b; usize_bits := 64 |}.
Let Hc : cfg_ok c := or_introl eq_refl.

Lemma dword_as_usize_same : same (parse_dword_as_usize c) (parse_dword_as_usize c').
Proof.
  intros i Hi. unfold parse_dword_as_usize.
  apply same_bind; [intros j _; reflexivity|exact (sound_rests _ _ dword_sound)|exact Hi|].
  intros r v Hr Hv. destruct (dword_sound i r v (proj1 Hi) Hv) as (e & _ & [H _]). unfold uint in H.
  change (256 ^ Z.of_nat 4) with (2 ^ 32) in H. cbn [usize_bits c c'].
  destruct (Z.ltb_spec v (2 ^ 32)); [|lia]. destruct (Z.ltb_spec v (2 ^ 64)); [reflexivity|lia].
Qed.
Lemma dword_as_usize_rests : rests (parse_dword_as_usize c).
Proof. exact (sound_rests _ _ (parse_dword_as_usize_sound c)). Qed.

Lemma values_same fuel :
  same (parse_value c fuel) (parse_value c' fuel) /\
  same (parse_vector c fuel) (parse_vector c' fuel) /\
  same (parse_properties_map c fuel) (parse_properties_map c' fuel).
Proof.
  induction fuel as [|f (IHv & IHw & IHm)]; [repeat split; intros i Hi; reflexivity|].
  destruct (user_data_sound c f) as (Sv & Sw & Sm).
  assert (Hword : rests word) by exact (sound_rests _ _ word_sound).
  repeat split; intros i Hi; cbn [parse_value parse_vector parse_properties_map].
  - apply same_bind; [intros j _; reflexivity|exact Hword|exact Hi|]. intros r t Hr _.
    destruct (property_type_from_repr t) as [pt|]; [|reflexivity].
    destruct pt; try reflexivity; apply same_pmap; assumption.
  - apply same_bind; [exact dword_as_usize_same|exact dword_as_usize_rests|exact Hi|]. intros r n Hr _.
    apply same_bind; [intros j _; reflexivity|exact Hword|exact Hr|]. intros r2 t Hr2 _.
    destruct (t =? 0).
    { apply same_pmap; [|exact Hr2]. apply same_count; [exact IHv|exact (sound_rests _ _ Sv)]. }
    destruct (property_type_from_repr t) as [pt|]; [|reflexivity].
    destruct pt; try reflexivity; (apply same_pmap; [|exact Hr2]); apply same_count; try assumption.
    + exact (sound_rests _ _ Sw).
    + exact (sound_rests _ _ Sm).
  - apply same_bind; [intros j _; reflexivity|exact (sound_rests _ _ dword_sound)|exact Hi|]. intros r n Hr _.
    apply same_bind; [exact dword_as_usize_same|exact dword_as_usize_rests|exact Hr|]. intros r2 k Hr2 _.
    rewrite (same_count (parse_property (parse_value c f)) (parse_property (parse_value c' f)) k); [reflexivity| |exact (sound_rests _ _ (parse_property_sound _ Sv))|exact Hr2].
    intros j Hj. unfold parse_property.
    apply same_bind; [intros l _; reflexivity|exact (sound_rests _ _ parse_string_sound)|exact Hj|].
    intros r3 s Hr3 _. rewrite (IHv r3 Hr3). reflexivity.
Qed.

Lemma properties_maps_same : same (parse_properties_maps c) (parse_properties_maps c').
Proof.
  intros i Hi. unfold parse_properties_maps.
  apply same_bind; [exact dword_as_usize_same|exact dword_as_usize_rests|exact Hi|]. intros r n Hr Hn.
  apply same_bind; [exact dword_as_usize_same|exact dword_as_usize_rests|exact Hr|]. intros r2 k Hr2 _.
  destruct (parse_dword_as_usize_sound c i r n (proj1 Hi) Hn) as (e & _ & [Hv _]). unfold uint in Hv.
  change (256 ^ Z.of_nat 4) with (2 ^ 32) in Hv.
  assert (Htake : forall m, 2 ^ 31 <= m -> take m r2 = Err (NError (ENom r2 KEof))).
  { intros m Hm. unfold take. destruct (Z.ltb_spec (zlen r2) m); [reflexivity|]. destruct Hr2. lia. }
  unfold usizec, checked, wrap. cbn [usize_bits debug c c'].
  destruct (Z.leb_spec 0 (n - 8)) as [H8|H8]; cbn [andb].
  - destruct (Z.ltb_spec (n - 8) (0 + 2 ^ 32)); [|lia]. destruct (Z.ltb_spec (n - 8) (0 + 2 ^ 64)); [|lia].
    cbn [bind]. destruct (take (n - 8) r2) as [[r3 area]|e'|q] eqn:Ht; cbn [bind]; try reflexivity.
    rewrite (same_count _ _ k (proj2 (proj2 (values_same (S (length area)))))
               (sound_rests _ _ (proj2 (proj2 (user_data_sound c (S (length area)))))) area
               (proj1 (take_fine _ _ _ _ Hr2 Ht))).
    reflexivity.
  - destruct b; [reflexivity|]. cbn [bind].
    assert (E32 : (n - 8 - 0) mod 2 ^ 32 = n - 8 + 2 ^ 32).
    { symmetry. apply Z.mod_unique with (-1); lia. }
    assert (E64 : (n - 8 - 0) mod 2 ^ 64 = n - 8 + 2 ^ 64).
    { symmetry. apply Z.mod_unique with (-1); lia. }
    rewrite !Htake by lia. reflexivity.
Qed.

Lemma cond_rests {A} t (p : parser A) : rests p -> rests (cond t p).
Proof.
  intros Hp i r a Hi H. unfold cond in H. destruct t; [|inversion H; subst; exact Hi].
  unfold pmap in H. destruct (p i) as [[r1 x]|e|q] eqn:E; cbn [bind] in H; try discriminate.
  inversion H. subst. exact (Hp _ _ _ Hi E).
Qed.
Lemma user_data_same : same (parse_user_data_chunk c) (parse_user_data_chunk c').
Proof.
  intros i Hi. unfold parse_user_data_chunk.
  apply same_bind; [intros l _; reflexivity|exact (sound_rests _ _ dword_sound)|exact Hi|]. intros r fl Hr _. cbv zeta.
  apply same_bind; [intros l _; reflexivity|exact (cond_rests _ _ (sound_rests _ _ parse_string_sound))|exact Hr|].
  intros r2 t Hr2 _.
  apply same_bind; [intros l _; reflexivity|exact (cond_rests _ _ (sound_rests _ _ (proj1 parse_color_reads)))|exact Hr2|].
  intros r3 x Hr3 _.
  rewrite (same_cond (contains (from_bits_truncate UDF_ALL fl) UDF_HAS_PROPERTIES) _ _ properties_maps_same r3 Hr3). reflexivity.
Qed.
Lemma palette_same : same (parse_palette_chunk c) (parse_palette_chunk c').
Proof. intros i Hi. unfold parse_palette_chunk. rewrite (dword_as_usize_same i Hi). reflexivity. Qed.
Lemma external_files_same : same (parse_external_files_chunk c) (parse_external_files_chunk c').
Proof. intros i Hi. unfold parse_external_files_chunk. rewrite (dword_as_usize_same i Hi). reflexivity. Qed.
Lemma slice_same : same (parse_slice_chunk c) (parse_slice_chunk c').
Proof. intros i Hi. unfold parse_slice_chunk. rewrite (dword_as_usize_same i Hi). reflexivity. Qed.

Lemma chunk_data_same t x : fine x -> parse_chunk_data c t x = parse_chunk_data c' t x.
Proof.
  intros Hx. destruct t as [t|t]; [|reflexivity]. destruct t; try reflexivity; cbn [parse_chunk_data].
  - rewrite (external_files_same x Hx). reflexivity.
  - rewrite (palette_same x Hx). reflexivity.
  - rewrite (user_data_same x Hx). reflexivity.
  - rewrite (slice_same x Hx). reflexivity.
Qed.
Lemma pmap_rests {A B} (p : parser A) (f : A -> B) : rests p -> rests (pmap p f).
Proof.
  intros Hp i r a Hi H. unfold pmap in H. destruct (p i) as [[r1 x]|e|q] eqn:E; cbn [bind] in H; try discriminate.
  inversion H. subst. exact (Hp _ _ _ Hi E).
Qed.
Lemma chunk_same : same (parse_chunk c) (parse_chunk c').
Proof.
  intros i Hi. unfold parse_chunk.
  apply same_bind; [intros l _; reflexivity|exact (sound_rests _ _ (dword_size_sound _))|exact Hi|]. intros r n Hr _.
  change (@u32c nom_err c' (n - 4)) with (@u32c nom_err c (n - 4)).
  destruct (u32c c (n - 4)) as [m|e|q]; cbn [bind]; try reflexivity.
  destruct (take m r) as [[r2 x]|e|q] eqn:Ht; cbn [bind]; try reflexivity.
  destruct (take_fine _ _ _ _ Hr Ht) as [Hx _].
  destruct (parse_chunk_type x) as [[x2 t]|e|q] eqn:Et; cbn [bind]; try reflexivity.
  rewrite (chunk_data_same t x2 (pmap_rests _ _ (sound_rests _ _ word_sound) _ _ _ Hx Et)). reflexivity.
Qed.
Lemma suffixing_rests {A} (p : parser A) : suffixing p -> rests p.
Proof. intros Hp i r a Hi H. destruct (Hp i r a H) as [e ->]. exact (fine_suffix _ _ Hi). Qed.
Lemma tag_rests t : rests (Nom.tag t).
Proof. intros i r a Hi H. apply tag_inv in H. destruct H as [-> _]. exact (fine_suffix _ _ Hi). Qed.
Lemma rawframe_same : same (parse_rawframe c) (parse_rawframe c').
Proof.
  intros i Hi. unfold parse_rawframe.
  apply same_bind; [intros l _; reflexivity|exact (sound_rests _ _ (dword_size_sound _))|exact Hi|]. intros r n Hr _.
  change (@u32c nom_err c' (n - 4)) with (@u32c nom_err c (n - 4)).
  destruct (u32c c (n - 4)) as [m|e|q]; cbn [bind]; try reflexivity.
  destruct (take m r) as [[r2 x]|e|q] eqn:Ht; cbn [bind]; try reflexivity.
  destruct (take_fine _ _ _ _ Hr Ht) as [Hx _].
  apply same_bind; [intros l _; reflexivity|exact (tag_rests _)|exact Hx|]. intros r3 y3 Hr3 _.
  apply same_bind; [intros l _; reflexivity|exact (sound_rests _ _ word_sound)|exact Hr3|]. intros r4 y4 Hr4 _.
  apply same_bind; [intros l _; reflexivity|exact (sound_rests _ _ word_sound)|exact Hr4|]. intros r5 y5 Hr5 _.
  apply same_bind; [intros l _; reflexivity|exact (take_rests _)|exact Hr5|]. intros r6 y6 Hr6 _.
  apply same_bind; [exact dword_as_usize_same|exact dword_as_usize_rests|exact Hr6|]. intros r7 y7 Hr7 _. cbv zeta.
  unfold parse_chunks.
  rewrite (same_count _ _ _ chunk_same (suffixing_rests _ (parse_chunk_suffix c)) r7 Hr7). reflexivity.
Qed.
Lemma rawframe_rests : rests (parse_rawframe c).
Proof. intros i r a Hi H. destruct (parse_rawframe_suffix c i r a H) as (e & -> & _). exact (fine_suffix _ _ Hi). Qed.
Lemma many_loop_same {A} (p p' : parser A) fuel : same p p' -> rests p ->
  forall acc i, fine i -> many_loop p fuel acc i = many_loop p' fuel acc i.
Proof.
  intros Hs Hr. induction fuel as [|f IH]; intros acc i Hi; [reflexivity|]. cbn [many_loop].
  rewrite <- (Hs i Hi). destruct (p i) as [[r a]|[e|e]|q] eqn:E; try reflexivity.
  destruct (length r =? length i)%nat; [reflexivity|]. apply IH. exact (Hr _ _ _ Hi E).
Qed.
Lemma raw_file_same i : fine i -> parse_raw_file c i = parse_raw_file c' i.
Proof.
  intros Hi. unfold parse_raw_file.
  apply same_bind; [intros l _; reflexivity|exact (sound_rests _ _ parse_header_sound)|exact Hi|]. intros r h Hr _.
  unfold parse_frames, complete, all_consuming, many1. rewrite <- (rawframe_same r Hr).
  destruct (parse_rawframe c r) as [[r2 f]|e|q] eqn:E; [|reflexivity|reflexivity].
  rewrite (many_loop_same _ _ _ rawframe_same rawframe_rests _ r2 (rawframe_rests _ _ _ Hr E)). reflexivity.
Qed.

Let Hc' : cfg_ok c' := or_intror eq_refl.
Lemma load_same i : fine i -> load c i = load c' i.
Proof.
  intros Hi. unfold load. f_equal. f_equal.
  assert (Ha' : addressable c' i) by (destruct Hi as [_ H]; unfold addressable; cbn [usize_bits c']; lia).
  rewrite (parse_file_eq c i Hc (proj1 Hi) (proj2 Hi)), (parse_file_eq c' i Hc' (proj1 Hi) Ha').
  rewrite (raw_file_same i Hi). reflexivity.
Qed.

(** ** Images *)
Lemma usizec_same {E} z : 0 <= z < 2 ^ 32 -> @usizec E c z = @usizec E c' z.
Proof.
  intros Hz. unfold usizec, checked. cbn [usize_bits c c'].
  replace ((0 <=? z) && (z <? 0 + 2 ^ 32)) with true by lia. replace ((0 <=? z) && (z <? 0 + 2 ^ 64)) with true by lia.
  reflexivity.
Qed.
Lemma usizec_in {E} z : 0 <= z < 2 ^ 32 -> @usizec E c z = Ok z.
Proof.
  intros Hz. unfold usizec, checked. cbn [usize_bits c].
  replace ((0 <=? z) && (z <? 0 + 2 ^ 32)) with true by lia. reflexivity.
Qed.
Lemma vec_same {E} n : n < 2 ^ 31 -> @vec_zeroed E c n = @vec_zeroed E c' n.
Proof.
  intros Hn. unfold vec_zeroed. cbn [usize_bits c c'].
  replace (n <? 2 ^ (32 - 1)) with true by lia. replace (n <? 2 ^ (64 - 1)) with true by lia. reflexivity.
Qed.
Lemma gray_same src t : zlen src * 2 < 2 ^ 32 -> grayscale_to_rgba c src t = grayscale_to_rgba c' src t.
Proof.
  intros H. unfold grayscale_to_rgba. rewrite usizec_same by (pose proof (zlen_nonneg src); lia). reflexivity.
Qed.
Lemma indexed_same src p t : zlen src * 4 < 2 ^ 32 -> indexed_to_rgba c src p t = indexed_to_rgba c' src p t.
Proof.
  intros H. unfold indexed_to_rgba. rewrite usizec_same by (pose proof (zlen_nonneg src); lia). reflexivity.
Qed.

Context (inflate : inflater) (Hinf : inflate_ok inflate).
Lemma decompress_length data t t' : decompress inflate data t = Ok t' -> zlen t' = zlen t.
Proof.
  unfold decompress. destruct (Hinf data (zlen t) (zlen_nonneg t)) as [H _].
  destruct (inflate data (zlen t)) as [st w]. cbn [snd] in H.
  assert (E : zlen (w ++ skipn (length w) t) = zlen t).
  { unfold zlen in *. rewrite app_length, skipn_length. lia. }
  destruct st; intros [= <-]; exact E.
Qed.
Lemma vec_length {E} n v : 0 <= n -> @vec_zeroed E c n = Ok v -> zlen v = n.
Proof.
  unfold vec_zeroed. destruct (n <? 2 ^ (usize_bits c - 1)); [|discriminate]. intros H [= <-].
  unfold zlen. rewrite repeat_length. lia.
Qed.
Lemma decode_same f im t : 0 <= im_width im -> 0 <= im_height im -> sizes_fit c im ->
  decode_image c inflate f im t = decode_image c' inflate f im t.
Proof.
  intros Hw Hh [Hs Hd]. unfold rgba_size in Hs. cbn [usize_bits c] in Hs, Hd. pose proof (zlen_nonneg (im_data im)) as Hz.
  assert (Ha : 0 <= im_width im * im_height im) by nia.
  unfold decode_image. destruct (h_color_depth (f_header f)); destruct (im_compressed im); try reflexivity.
  - rewrite <- (usizec_same (im_width im * im_height im)), (usizec_in (im_width im * im_height im)) by lia. cbn [bind].
    rewrite <- (usizec_same (im_width im * im_height im * 2)), (usizec_in (im_width im * im_height im * 2)) by lia. cbn [bind].
    rewrite <- (vec_same (im_width im * im_height im * 2)) by lia.
    destruct (vec_zeroed c (im_width im * im_height im * 2)) as [v|e|q] eqn:Ev; cbn [bind]; try reflexivity.
    destruct (decompress inflate (im_data im) v) as [v'|e|q] eqn:Ed; cbn [local_buf map_err bind]; try reflexivity.
    apply gray_same. apply decompress_length in Ed. apply vec_length in Ev; lia.
  - apply gray_same. lia.
  - rewrite <- (usizec_same (im_width im * im_height im)), (usizec_in (im_width im * im_height im)) by lia. cbn [bind].
    rewrite <- (vec_same (im_width im * im_height im)) by lia.
    destruct (vec_zeroed c (im_width im * im_height im)) as [v|e|q] eqn:Ev; cbn [bind]; try reflexivity.
    destruct (decompress inflate (im_data im) v) as [v'|e|q] eqn:Ed; cbn [local_buf map_err bind]; try reflexivity.
    destruct (need_palette (f_palette f) t) as [p|e|q]; cbn [bind]; try reflexivity.
    apply indexed_same. apply decompress_length in Ed. apply vec_length in Ev; lia.
  - destruct (need_palette (f_palette f) t) as [p|e|q]; cbn [bind]; try reflexivity. apply indexed_same. lia.
Qed.

Context (i : bytes) (s : ase_file) (Hi : fine i) (Hload : load c i = Ok s).
Lemma load_image_same k im t : nth_error (af_images s) k = Some im -> sizes_fit c im ->
  load_image c inflate s (Z.of_nat k) t = load_image c' inflate s (Z.of_nat k) t.
Proof.
  intros Him Hfit. unfold load_image, get_index. rewrite Nat2Z.id, Him. destruct (Z.leb_spec 0 (Z.of_nat k)); [|lia]. cbn [bind].
  destruct (image_facts c i s Hc (proj1 Hi) (proj2 Hi) Hload im (nth_error_In _ _ Him)) as (Hw & Hh & _).
  pose proof Hfit as [Hs _]. unfold rgba_size in Hs. cbn [usize_bits c] in Hs.
  assert (Ha : 0 <= im_width im * im_height im) by nia.
  rewrite <- (usizec_same (im_width im * im_height im)), (usizec_in (im_width im * im_height im)) by lia. cbn [bind].
  rewrite <- (usizec_same (im_width im * im_height im * 4)), (usizec_in (im_width im * im_height im * 4)) by lia. cbn [bind].
  destruct (zlen t <? im_width im * im_height im * 4); [reflexivity|].
  rewrite (decode_same (af_file s) im _ (proj1 Hw) (proj1 Hh) Hfit). reflexivity.
Qed.

(** ** Rendering *)
Lemma fn_same m : blend_mode_to_blend_fn c m = blend_mode_to_blend_fn c' m.
Proof. destruct m; reflexivity. Qed.
Lemma fold_same {E A B} (f g : A -> B -> out E A) l : (forall a b, In b l -> f a b = g a b) -> forall a, fold_out f l a = fold_out g l a.
Proof.
  induction l as [|x l IH]; intros H a; [reflexivity|]. cbn [fold_out]. rewrite (H a x (or_introl eq_refl)).
  destruct (g a x); cbn [bind]; try reflexivity. apply IH. intros a' y Hy. apply H. now right.
Qed.
Lemma pixel_same W H cel img f op t y x : 0 <= W -> 0 <= H -> W * H * 4 < 2 ^ 32 ->
  0 <= x < fst (fc_size cel) -> 0 <= y < snd (fc_size cel) -> fst (fc_size cel) * snd (fc_size cel) * 4 < 2 ^ 32 ->
  render_pixel c W H cel img f op t y x = render_pixel c' W H cel img f op t y x.
Proof.
  intros HW HH HC Hx Hy HS. unfold render_pixel, checked_add_signed16.
  destruct (Z.leb_spec 0 (x + fst (fc_origin cel))); cbn [andb]; [|reflexivity].
  destruct (_ <? _); [|reflexivity]. destruct (Z.leb_spec W (x + fst (fc_origin cel))); [reflexivity|].
  destruct (Z.leb_spec 0 (y + snd (fc_origin cel))); cbn [andb]; [|reflexivity].
  destruct (_ <? _); [|reflexivity]. destruct (Z.leb_spec H (y + snd (fc_origin cel))); [reflexivity|].
  set (tx := x + fst (fc_origin cel)) in *. set (ty := y + snd (fc_origin cel)) in *.
  pose proof (index_bound W H tx ty ltac:(lia) ltac:(lia)) as B1. pose proof (index_bound _ _ x y Hx Hy) as B2.
  assert (0 <= ty * W) by nia. assert (0 <= y * fst (fc_size cel)) by nia.
  rewrite <- (usizec_same (ty * W)), (usizec_in (ty * W)) by lia. cbn [bind].
  rewrite <- (usizec_same (ty * W + tx)), (usizec_in (ty * W + tx)) by lia. cbn [bind].
  rewrite <- (usizec_same (y * fst (fc_size cel))), (usizec_in (y * fst (fc_size cel))) by lia. cbn [bind].
  rewrite <- (usizec_same (y * fst (fc_size cel) + x)), (usizec_in (y * fst (fc_size cel) + x)) by lia. cbn [bind].
  rewrite <- (usizec_same ((y * fst (fc_size cel) + x) * 4)), (usizec_in ((y * fst (fc_size cel) + x) * 4)) by lia. cbn [bind].
  rewrite <- (usizec_same ((y * fst (fc_size cel) + x) * 4 + 4)), (usizec_in ((y * fst (fc_size cel) + x) * 4 + 4)) by lia. cbn [bind].
  destruct (slice_range img _ _) as [cp|e|q]; cbn [bind]; try reflexivity.
  rewrite <- (usizec_same ((ty * W + tx) * 4)), (usizec_in ((ty * W + tx) * 4)) by lia. cbn [bind].
  rewrite <- (usizec_same ((ty * W + tx) * 4 + 4)), (usizec_in ((ty * W + tx) * 4 + 4)) by lia. cbn [bind].
  reflexivity.
Qed.

Context (Hfit : sprite_fits c s).
Let Ha' : addressable c' i.
Proof. destruct Hi as [_ H]. unfold addressable. cbn [usize_bits c']. lia. Qed.
Let Hload' : load c' i = Ok s.
Proof. rewrite <- (load_same i Hi). exact Hload. Qed.
Let Hfit' : sprite_fits c' s := wide_fits c' i s Hc' (proj1 Hi) Ha' Hload' eq_refl.

Lemma cel_same sel cel t : cel_ok s cel -> render_cel c inflate s sel t cel = render_cel c' inflate s sel t cel.
Proof.
  intros Hok. rewrite (render_cel_eq c i s Hc (proj1 Hi) (proj2 Hi) Hload inflate Hfit sel cel t Hok).
  rewrite (render_cel_eq c' i s Hc' (proj1 Hi) Ha' Hload' inflate Hfit' sel cel t Hok).
  destruct (drawn s sel cel) as [l|]; [|reflexivity].
  destruct (cel_sizes c i s Hc (proj1 Hi) (proj2 Hi) Hload Hfit cel Hok) as (H1 & H2 & H3).
  destruct (canvas_facts c i s Hc (proj1 Hi) (proj2 Hi) Hload) as [HW HH].
  pose proof Hfit as [HC HF]. unfold canvas_size in HC. cbn [usize_bits c] in HC, H3.
  destruct Hok as (H0 & im & Hj & _).
  rewrite <- (Z2Nat.id (fc_image_index cel)) by exact H0.
  assert (Hf : sizes_fit c im).
  { rewrite Forall_forall in HF. destruct (HF im (nth_error_In _ _ Hj)) as [F1 F2]. cbn [usize_bits c] in F1, F2.
    change (2 ^ (32 - 1)) with (2 ^ 31) in F1. unfold sizes_fit. cbn [usize_bits c]. lia. }
  rewrite (load_image_same _ im _ Hj Hf).
  destruct (load_image c' inflate s _ _) as [img|e|q]; cbn [unwrap bind]; [|reflexivity|reflexivity].
  rewrite fn_same. destruct (blend_mode_to_blend_fn c' (ly_blend_mode l)) as [f|e|q]; cbn [lift bind]; [|destruct e|reflexivity].
  unfold render_pixels. apply fold_same. intros t1 y Hy. apply fold_same. intros t2 x Hx. apply zrange_in in Hx, Hy.
  apply pixel_same; lia.
Qed.
Lemma frame_same sel k t : render_frame c inflate s k t sel = render_frame c' inflate s k t sel.
Proof.
  unfold render_frame. destruct (canvas_facts c i s Hc (proj1 Hi) (proj2 Hi) Hload) as [HW HH].
  pose proof Hfit as [HC _]. unfold canvas_size in HC. cbn [usize_bits c] in HC.
  fold (canvas_width s) (canvas_height s). assert (0 <= canvas_width s * canvas_height s) by nia.
  rewrite <- (usizec_same (canvas_width s * canvas_height s)), (usizec_in (canvas_width s * canvas_height s)) by lia. cbn [bind].
  rewrite <- (usizec_same (canvas_width s * canvas_height s * 4)), (usizec_in (canvas_width s * canvas_height s * 4)) by lia. cbn [bind].
  destruct (_ <? _); [reflexivity|]. unfold get_index. destruct (0 <=? k); cbn [bind]; [|reflexivity].
  destruct (nth_error (af_frames s) (Z.to_nat k)) as [sf|] eqn:Hk; cbn [bind]; [|reflexivity].
  pose proof (frame_cels_ok c i s Hc (proj1 Hi) (proj2 Hi) Hload _ sf Hk) as Hok. rewrite Forall_forall in Hok.
  apply fold_same. intros a cel Hcel. apply cel_same, Hok, Hcel.
Qed.
End Widths.

Lemma width_load b i : is_bytes i -> addressable {| debug := b; usize_bits := 32 |} i ->
  load {| debug := b; usize_bits := 32 |} i = load {| debug := b; usize_bits := 64 |} i.
Proof. intros Hi Ha. apply load_same. split; assumption. Qed.
Lemma width_load_image b i s inflate k im t : is_bytes i -> addressable {| debug := b; usize_bits := 32 |} i ->
  load {| debug := b; usize_bits := 32 |} i = Ok s -> inflate_ok inflate ->
  nth_error (af_images s) k = Some im -> sizes_fit {| debug := b; usize_bits := 32 |} im ->
  load_image {| debug := b; usize_bits := 32 |} inflate s (Z.of_nat k) t =
  load_image {| debug := b; usize_bits := 64 |} inflate s (Z.of_nat k) t.
Proof. intros Hi Ha Hl Hinf Him Hf. exact (load_image_same b inflate Hinf i s (conj Hi Ha) Hl k im t Him Hf). Qed.
Lemma width_render b i s inflate sel k t : is_bytes i -> addressable {| debug := b; usize_bits := 32 |} i ->
  load {| debug := b; usize_bits := 32 |} i = Ok s -> inflate_ok inflate -> sprite_fits {| debug := b; usize_bits := 32 |} s ->
  render_frame {| debug := b; usize_bits := 32 |} inflate s k t sel = render_frame {| debug := b; usize_bits := 64 |} inflate s k t sel.
Proof. intros Hi Ha Hl Hinf Hf. exact (frame_same b inflate Hinf i s (conj Hi Ha) Hl Hf sel k t). Qed.
