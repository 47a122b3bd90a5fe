(** The counted parsers give the outcome of the model's parsers, and the count
    is bounded by the length of the input. *)
From Coq Require Import Lia.
From Verif.Model Require Import Steps.

(** ** The outcome *)

Lemma bind_ext : forall E A B (m : out E A) (f g : A -> out E B),
  (forall a, f a = g a) -> bind m f = bind m g.
Proof. intros E A B [a|e|p] f g H; cbn; auto. Qed.

Lemma snd_nbind : forall A B (m : nout A) (k : A -> nout B),
  snd (nbind m k) = bind (snd m) (fun a => snd (k a)).
Proof. intros A B [n [a|e|p]] k; reflexivity. Qed.

Lemma nbind_ext : forall A B (m : nout A) (f g : A -> nout B),
  (forall a, f a = g a) -> nbind m f = nbind m g.
Proof. intros A B [n [a|e|p]] f g H; unfold nbind, steps; cbn [fst snd]; now rewrite ?H. Qed.

Lemma nbind_assoc : forall A B C (m : nout A) (f : A -> nout B) (g : B -> nout C),
  nbind (nbind m f) g = nbind m (fun a => nbind (f a) g).
Proof.
  intros A B C [n [a|e|p]] f g; unfold nbind, steps; cbn [fst snd]; try reflexivity.
  destruct (f a) as [n' [b|e|p]]; cbn [fst snd]; now rewrite ?Z.add_assoc.
Qed.

Lemma nbind_done : forall A B (a : A) (f : A -> nout B), nbind (done a) f = f a.
Proof. intros A B a f. unfold nbind, steps, done. cbn [fst snd]. rewrite Z.add_0_l. now destruct (f a). Qed.

Definition same {A} (np : nparser A) (p : parser A) := forall i, snd (np i) = p i.

Lemma same_bind : forall A B (np : nparser A) (p : parser A) i
    (nk : bytes * A -> nout B) (k : bytes * A -> out nom_err B),
  same np p -> (forall i a, snd (nk (i, a)) = k (i, a)) ->
  snd (nbind (np i) nk) = bind (p i) k.
Proof.
  intros A B np p i nk k Hp Hk. rewrite snd_nbind, Hp.
  apply bind_ext. intros [i' a]. apply Hk.
Qed.

Lemma same_le_uint : forall n, same (n_le_uint n) (le_uint n). Proof. now intros n i. Qed.
Lemma same_le_int : forall n, same (n_le_int n) (le_int n). Proof. now intros n i. Qed.
Lemma same_take : forall n, same (n_take n) (take n). Proof. now intros n i. Qed.
Lemma same_tag : forall n, same (n_tag n) (tag n). Proof. now intros n i. Qed.

Lemma same_pmap : forall A B (np : nparser A) p (f : A -> B),
  same np p -> same (n_pmap np f) (pmap p f).
Proof. intros A B np p f H i. unfold n_pmap, pmap. now apply same_bind. Qed.

Lemma same_flat_map : forall A B (np : nparser A) p (nf : A -> nparser B) f,
  same np p -> (forall a, same (nf a) (f a)) -> same (n_flat_map_p np nf) (flat_map_p p f).
Proof. intros A B np p nf f H Hf i. unfold n_flat_map_p, flat_map_p. apply same_bind; auto. intros. apply Hf. Qed.

Lemma same_cond : forall A b (np : nparser A) p, same np p -> same (n_cond b np) (cond b p).
Proof. intros A [|] np p H i; [now apply same_pmap|reflexivity]. Qed.

Lemma same_count : forall A (np : nparser A) p n, same np p -> same (n_count np n) (count p n).
Proof.
  intros A np p n H. unfold n_count, count. induction (Z.to_nat n) as [|m IH]; intros i; [reflexivity|].
  cbn [n_count_nat count_nat]. rewrite snd_nbind. cbn [step snd]. rewrite H.
  apply bind_ext. intros [i' a]. now apply same_bind.
Qed.

Lemma same_many_loop : forall A (np : nparser A) p, same np p ->
  forall fuel acc, same (n_many_loop np fuel acc) (many_loop p fuel acc).
Proof.
  intros A np p H fuel. induction fuel as [|f IH]; intros acc i; [reflexivity|].
  cbn [n_many_loop many_loop step]. rewrite H.
  destruct (p i) as [[i' a]|[e|e]|q]; try reflexivity.
  destruct (length i' =? length i)%nat; [reflexivity|]. cbn [steps snd]. apply IH.
Qed.

Lemma same_many1 : forall A (np : nparser A) p, same np p -> same (n_many1 np) (many1 p).
Proof.
  intros A np p H i. unfold n_many1, many1, step. rewrite H.
  destruct (p i) as [[i' a]|e|q]; try reflexivity.
  cbn [steps snd]. now apply same_many_loop.
Qed.

Lemma same_all_consuming : forall A (np : nparser A) p, same np p ->
  same (n_all_consuming np) (all_consuming p).
Proof.
  intros A np p H i. unfold n_all_consuming, all_consuming. apply same_bind; [exact H|].
  now intros [|x l] a.
Qed.

Create HintDb outcome.
#[local] Hint Resolve same_le_uint same_le_int same_take same_tag same_pmap same_flat_map
  same_cond same_count same_many1 same_all_consuming : outcome.

(** Follows the two texts side by side. *)
Ltac side_by_side :=
  repeat first
    [ reflexivity
    | match goal with
      | |- snd (nbind (lift ?m) _) = bind ?m _ =>
          rewrite snd_nbind; cbn [lift snd]; apply bind_ext; intro
      | |- snd (nbind (?np ?i) ?nk) = bind (?p ?i) ?k =>
          apply (same_bind _ _ np p i nk k); [solve [auto 6 with outcome]|intros ? ?]
      | |- snd (if ?b then _ else _) = (if ?b then _ else _) => destruct b
      | |- snd (match ?b with _ => _ end) = (match ?b with _ => _ end) => destruct b
      | |- snd (?np ?i) = ?p ?i => solve [apply (ltac:(auto 6 with outcome) : same np p)]
      end
    | progress cbv zeta ].

Ltac outcome d1 d2 := intros; intro; unfold d1, d2; side_by_side.

Lemma same_byte : same n_byte byte. Proof. apply same_le_uint. Qed.
Lemma same_word : same n_word word. Proof. apply same_le_uint. Qed.
Lemma same_short : same n_short short. Proof. apply same_le_int. Qed.
Lemma same_dword : same n_dword dword. Proof. apply same_le_uint. Qed.
Lemma same_long : same n_long long. Proof. apply same_le_int. Qed.
#[local] Hint Resolve same_byte same_word same_short same_dword same_long : outcome.
Lemma same_parse_point : same n_parse_point parse_point.
Proof. outcome n_parse_point parse_point. Qed.
#[local] Hint Resolve same_parse_point : outcome.
Lemma same_parse_size : same n_parse_size parse_size.
Proof. outcome n_parse_size parse_size. Qed.
#[local] Hint Resolve same_parse_size : outcome.
Lemma same_parse_rect : same n_parse_rect parse_rect.
Proof. outcome n_parse_rect parse_rect. Qed.
#[local] Hint Resolve same_parse_rect : outcome.
Lemma same_dword_size : forall f, same (n_dword_size f) (dword_size f).
Proof. outcome n_dword_size dword_size. Qed.
#[local] Hint Resolve same_dword_size : outcome.
Lemma same_parse_dword_as_usize : forall c, same (n_parse_dword_as_usize c) (parse_dword_as_usize c).
Proof. outcome n_parse_dword_as_usize parse_dword_as_usize. Qed.
#[local] Hint Resolve same_parse_dword_as_usize : outcome.
Lemma same_parse_dword_as_u8 : forall e, same (n_parse_dword_as_u8 e) (parse_dword_as_u8 e).
Proof. outcome n_parse_dword_as_u8 parse_dword_as_u8. Qed.
#[local] Hint Resolve same_parse_dword_as_u8 : outcome.
Lemma same_parse_uuid : same n_parse_uuid parse_uuid.
Proof. unfold n_parse_uuid, parse_uuid; auto 6 with outcome. Qed.
#[local] Hint Resolve same_parse_uuid : outcome.
Lemma same_fixed : same n_fixed fixed.
Proof. outcome n_fixed fixed. Qed.
#[local] Hint Resolve same_fixed : outcome.
Lemma same_parse_color : same n_parse_color parse_color.
Proof. outcome n_parse_color parse_color. Qed.
#[local] Hint Resolve same_parse_color : outcome.
Lemma same_parse_rgb : same n_parse_rgb parse_rgb.
Proof. outcome n_parse_rgb parse_rgb. Qed.
#[local] Hint Resolve same_parse_rgb : outcome.
Lemma same_parse_color_depth : same n_parse_color_depth parse_color_depth.
Proof. outcome n_parse_color_depth parse_color_depth. Qed.
#[local] Hint Resolve same_parse_color_depth : outcome.
Lemma same_parse_chunk_type : same n_parse_chunk_type parse_chunk_type.
Proof. unfold n_parse_chunk_type, parse_chunk_type; auto 6 with outcome. Qed.
#[local] Hint Resolve same_parse_chunk_type : outcome.
Lemma same_parse_bool : same n_parse_bool parse_bool.
Proof. unfold n_parse_bool, parse_bool; auto 6 with outcome. Qed.
#[local] Hint Resolve same_parse_bool : outcome.

Lemma same_parse_string : same n_parse_string parse_string.
Proof.
  intro input. unfold n_parse_string, parse_string. apply same_bind; [auto with outcome|].
  intros i a. cbn [steps snd]. now destruct (from_utf8 a) as [[? ?]|].
Qed.
#[local] Hint Resolve same_parse_string : outcome.

Lemma same_parse_property : forall np p, same np p -> same (n_parse_property np) (parse_property p).
Proof. intros np p H. outcome n_parse_property parse_property. Qed.
#[local] Hint Resolve same_parse_property : outcome.

Lemma same_values : forall c fuel,
  same (n_parse_value c fuel) (parse_value c fuel) /\
  same (n_parse_vector c fuel) (parse_vector c fuel) /\
  same (n_parse_properties_map c fuel) (parse_properties_map c fuel).
Proof.
  intros c fuel. induction fuel as [|f [IH1 [IH2 IH3]]]; [repeat split; intros i; reflexivity|].
  split; [|split]; intros i; cbn [n_parse_value parse_value n_parse_vector parse_vector
    n_parse_properties_map parse_properties_map]; side_by_side.
Qed.

Lemma same_parse_properties_map : forall c fuel,
  same (n_parse_properties_map c fuel) (parse_properties_map c fuel).
Proof. intros c fuel. apply same_values. Qed.
#[local] Hint Resolve same_parse_properties_map : outcome.

Lemma same_parse_properties_maps : forall c, same (n_parse_properties_maps c) (parse_properties_maps c).
Proof.
  intros c. outcome n_parse_properties_maps parse_properties_maps.
  match goal with |- snd (match n_count ?np ?n ?i with _ => _ end) = match count ?p _ _ with _ => _ end =>
    assert (E : snd (n_count np n i) = count p n i) by (apply same_count, same_parse_properties_map)
  end.
  rewrite <- E. destruct (n_count _ _ _) as [k [r|e|q]]; reflexivity.
Qed.
#[local] Hint Resolve same_parse_properties_maps : outcome.

Lemma same_parse_user_data_chunk : forall c, same (n_parse_user_data_chunk c) (parse_user_data_chunk c).
Proof. outcome n_parse_user_data_chunk parse_user_data_chunk. Qed.
#[local] Hint Resolve same_parse_user_data_chunk : outcome.
Lemma same_parse_packet : same n_parse_packet parse_packet.
Proof. outcome n_parse_packet parse_packet. Qed.
#[local] Hint Resolve same_parse_packet : outcome.
Lemma same_parse_old_palette_chunk : same n_parse_old_palette_chunk parse_old_palette_chunk.
Proof. outcome n_parse_old_palette_chunk parse_old_palette_chunk. Qed.
#[local] Hint Resolve same_parse_old_palette_chunk : outcome.
Lemma same_parse_palette_entry : same n_parse_palette_entry parse_palette_entry.
Proof. outcome n_parse_palette_entry parse_palette_entry. Qed.
#[local] Hint Resolve same_parse_palette_entry : outcome.
Lemma same_parse_palette_chunk : forall c, same (n_parse_palette_chunk c) (parse_palette_chunk c).
Proof. outcome n_parse_palette_chunk parse_palette_chunk. Qed.
#[local] Hint Resolve same_parse_palette_chunk : outcome.
Lemma same_parse_layer_chunk : same n_parse_layer_chunk parse_layer_chunk.
Proof. outcome n_parse_layer_chunk parse_layer_chunk. Qed.
#[local] Hint Resolve same_parse_layer_chunk : outcome.
Lemma same_parse_cel_extra_chunk : same n_parse_cel_extra_chunk parse_cel_extra_chunk.
Proof. outcome n_parse_cel_extra_chunk parse_cel_extra_chunk. Qed.
#[local] Hint Resolve same_parse_cel_extra_chunk : outcome.
Lemma same_parse_color_profile : same n_parse_color_profile parse_color_profile.
Proof.
  outcome n_parse_color_profile parse_color_profile.
  match goal with |- context [color_profile_type_from ?w] => destruct (color_profile_type_from w) end;
    try reflexivity.
  side_by_side.
Qed.
#[local] Hint Resolve same_parse_color_profile : outcome.
Lemma same_parse_external_file : same n_parse_external_file parse_external_file.
Proof. outcome n_parse_external_file parse_external_file. Qed.
#[local] Hint Resolve same_parse_external_file : outcome.
Lemma same_parse_external_files_chunk : forall c, same (n_parse_external_files_chunk c) (parse_external_files_chunk c).
Proof. outcome n_parse_external_files_chunk parse_external_files_chunk. Qed.
#[local] Hint Resolve same_parse_external_files_chunk : outcome.
Lemma same_parse_mask_chunk : same n_parse_mask_chunk parse_mask_chunk.
Proof. outcome n_parse_mask_chunk parse_mask_chunk. Qed.
#[local] Hint Resolve same_parse_mask_chunk : outcome.
Lemma same_parse_nine_patch : same n_parse_nine_patch parse_nine_patch.
Proof. outcome n_parse_nine_patch parse_nine_patch. Qed.
#[local] Hint Resolve same_parse_nine_patch : outcome.
Lemma same_parse_pivot : same n_parse_pivot parse_pivot.
Proof. outcome n_parse_pivot parse_pivot. Qed.
#[local] Hint Resolve same_parse_pivot : outcome.
Lemma same_parse_slice_key : forall flags, same (n_parse_slice_key flags) (parse_slice_key flags).
Proof. outcome n_parse_slice_key parse_slice_key. Qed.
#[local] Hint Resolve same_parse_slice_key : outcome.
Lemma same_parse_slice_chunk : forall c, same (n_parse_slice_chunk c) (parse_slice_chunk c).
Proof. outcome n_parse_slice_chunk parse_slice_chunk. Qed.
#[local] Hint Resolve same_parse_slice_chunk : outcome.
Lemma same_parse_tag : same n_parse_tag parse_tag.
Proof. outcome n_parse_tag parse_tag. Qed.
#[local] Hint Resolve same_parse_tag : outcome.
Lemma same_parse_tags_chunk : same n_parse_tags_chunk parse_tags_chunk.
Proof. outcome n_parse_tags_chunk parse_tags_chunk. Qed.
#[local] Hint Resolve same_parse_tags_chunk : outcome.
Lemma same_parse_tileset_external_file : same n_parse_tileset_external_file parse_tileset_external_file.
Proof. outcome n_parse_tileset_external_file parse_tileset_external_file. Qed.
#[local] Hint Resolve same_parse_tileset_external_file : outcome.
Lemma same_parse_tiles : same n_parse_tiles parse_tiles.
Proof. unfold n_parse_tiles, parse_tiles; auto 6 with outcome. Qed.
#[local] Hint Resolve same_parse_tiles : outcome.
Lemma same_parse_tileset_chunk : same n_parse_tileset_chunk parse_tileset_chunk.
Proof. outcome n_parse_tileset_chunk parse_tileset_chunk. Qed.
#[local] Hint Resolve same_parse_tileset_chunk : outcome.

Lemma same_parse_cel_content : forall t i, snd (n_parse_cel_content t i) = parse_cel_content t i.
Proof. intros t i. unfold n_parse_cel_content, parse_cel_content. side_by_side. Qed.

Lemma same_parse_cel_chunk : same n_parse_cel_chunk parse_cel_chunk.
Proof.
  outcome n_parse_cel_chunk parse_cel_chunk.
  rewrite snd_nbind, same_parse_cel_content. now apply bind_ext.
Qed.
#[local] Hint Resolve same_parse_cel_chunk : outcome.

Lemma same_just : forall A (f : A -> chunk) np p i, same np p ->
  snd (n_just f (np i)) = just f (p i).
Proof. intros A f np p i H. unfold n_just, just. now apply same_bind. Qed.

Lemma same_parse_chunk_data : forall c t d, snd (n_parse_chunk_data c t d) = parse_chunk_data c t d.
Proof.
  intros c [t|t] d; [|reflexivity].
  destruct t; cbn [n_parse_chunk_data parse_chunk_data]; try reflexivity;
    (match goal with |- snd (n_just ?f (?np ?i)) = just ?f (?p ?i) =>
       apply (same_just _ f np p i); auto with outcome end).
Qed.

Lemma same_parse_chunk : forall c, same (n_parse_chunk c) (parse_chunk c).
Proof.
  intros c. outcome n_parse_chunk parse_chunk.
  rewrite snd_nbind, same_parse_chunk_data. now apply bind_ext.
Qed.
#[local] Hint Resolve same_parse_chunk : outcome.

Lemma same_parse_chunks : forall c n, same (n_parse_chunks c n) (parse_chunks c n).
Proof. intros c n. apply same_count, same_parse_chunk. Qed.
#[local] Hint Resolve same_parse_chunks : outcome.

Lemma same_parse_rawframe : forall c, same (n_parse_rawframe c) (parse_rawframe c).
Proof. intros c. outcome n_parse_rawframe parse_rawframe. Qed.
#[local] Hint Resolve same_parse_rawframe : outcome.

Lemma same_parse_frames : forall c, same (n_parse_frames c) (parse_frames c).
Proof. intros c. apply same_all_consuming, same_many1, same_parse_rawframe. Qed.
#[local] Hint Resolve same_parse_frames : outcome.

Lemma same_parse_header : same n_parse_header parse_header.
Proof. outcome n_parse_header parse_header. Qed.
#[local] Hint Resolve same_parse_header : outcome.

Lemma same_parse_raw_file : forall c i, snd (n_parse_raw_file c i) = parse_raw_file c i.
Proof. intros c i. unfold n_parse_raw_file, parse_raw_file. side_by_side. Qed.

(** ** The count *)

(** With [w] steps to spend per byte read: [k] is what is left over (when
    negative) or owed after a success, [b] what may be owed after a failure. *)
Definition cheap {A} (w k b : Z) (p : nparser A) := forall i,
  0 <= fst (p i) /\
  match snd (p i) with
  | Ok (rest, _) => fst (p i) + w * zlen rest <= w * zlen i + k
  | _ => fst (p i) <= w * zlen i + b
  end.

Definition total {A} (w b : Z) (f : bytes -> nout A) := forall i,
  0 <= fst (f i) <= w * zlen i + b.

Notation eco w := (cheap w (-1) 1).
Notation lax w := (cheap w 0 2).

Lemma zlen_nonneg : forall A (l : list A), 0 <= zlen l.
Proof. intros. unfold zlen. lia. Qed.

Lemma cheap_weaken : forall A w k b (p : nparser A) w' k' b',
  cheap w k b p -> k <= 0 -> 0 < w -> w <= w' -> k <= k' -> b <= b' -> cheap w' k' b' p.
Proof.
  intros A w k b p w' k' b' H Hk H0 Hw Hk' Hb i. specialize (H i). destruct H as [Hn H].
  split; [exact Hn|]. pose proof (zlen_nonneg _ i). destruct (snd (p i)) as [[r a]|e|q].
  - pose proof (zlen_nonneg _ r). assert (w * zlen r <= w * zlen i) by lia.
    assert (zlen r <= zlen i) by nia. nia.
  - nia.
  - nia.
Qed.

Lemma cheap_total : forall A w k b (p : nparser A) b',
  cheap w k b p -> 0 <= w -> k <= b' -> b <= b' -> total w b' p.
Proof.
  intros A w k b p b' H H0 Hk Hb i. specialize (H i). destruct H as [Hn H].
  split; [exact Hn|]. destruct (snd (p i)) as [[r a]|e|q]; try lia.
  pose proof (zlen_nonneg _ r). nia.
Qed.

Lemma cheap_bind : forall A B w k1 b1 k2 b2 k b (p : nparser A) (body : bytes -> A -> npres B),
  cheap w k1 b1 p -> (forall a, cheap w k2 b2 (fun i => body i a)) ->
  k1 + k2 <= k -> b1 <= b -> k1 + b2 <= b ->
  cheap w k b (fun i => nbind (p i) (fun y => let (i, a) := y in body i a)).
Proof.
  intros A B w k1 b1 k2 b2 k b p body Hp Hb Hk H1 H2 i. unfold nbind, steps.
  specialize (Hp i). destruct Hp as [Hn Hp]. destruct (snd (p i)) as [[r a]|e|q]; cbn; try lia.
  specialize (Hb a r). cbn in Hb. destruct Hb as [Hm Hb].
  split; [lia|]. destruct (snd (body r a)) as [[r' x]|e|q]; lia.
Qed.

Lemma total_bind : forall A B w k1 b1 b2 b (p : nparser A) (body : bytes -> A -> nout B),
  cheap w k1 b1 p -> (forall a, total w b2 (fun i => body i a)) ->
  b1 <= b -> k1 + b2 <= b -> 
  total w b (fun i => nbind (p i) (fun y => let (i, a) := y in body i a)).
Proof.
  intros A B w k1 b1 b2 b p body Hp Hb H1 H2 i. unfold nbind, steps.
  specialize (Hp i). destruct Hp as [Hn Hp]. destruct (snd (p i)) as [[r a]|e|q]; cbn; try lia.
  specialize (Hb a r). cbn in Hb. lia.
Qed.

Lemma eco_bind : forall A B w (p : nparser A) (body : bytes -> A -> npres B),
  eco w p -> (forall a, lax w (fun i => body i a)) ->
  eco w (fun i => nbind (p i) (fun y => let (i, a) := y in body i a)).
Proof. intros A B w p body Hp Hb. eapply cheap_bind; eauto; lia. Qed.

Lemma lax_bind : forall A B w (p : nparser A) (body : bytes -> A -> npres B),
  lax w p -> (forall a, lax w (fun i => body i a)) ->
  lax w (fun i => nbind (p i) (fun y => let (i, a) := y in body i a)).
Proof. intros A B w p body Hp Hb. eapply cheap_bind; eauto; lia. Qed.

Lemma eco_lax : forall A w (p : nparser A), eco w p -> lax w p.
Proof.
  intros A w p H i. specialize (H i). destruct H as [Hn H].
  split; [exact Hn|]. destruct (snd (p i)) as [[r a]|e|q]; lia.
Qed.

Lemma eco_more : forall A w w' (p : nparser A), eco w p -> 0 < w -> w <= w' -> eco w' p.
Proof. intros. eapply cheap_weaken; eauto; lia. Qed.

Lemma lax_more : forall A w w' (p : nparser A), lax w p -> 0 < w -> w <= w' -> lax w' p.
Proof. intros. eapply cheap_weaken; eauto; lia. Qed.

Lemma lax_done : forall A w (a : A), lax w (fun i => done (i, a)).
Proof. intros A w a i. cbn. lia. Qed.

Lemma lax_end : forall A w (a : bytes -> A), 0 <= w -> lax w (fun i => done ([], a i)).
Proof. intros A w a H i. cbn. pose proof (zlen_nonneg _ i). unfold zlen at 1. cbn. nia. Qed.

Lemma lax_fail : forall A w e, 0 <= w -> lax w (fun i => fail e : npres A).
Proof. intros A w e H i. cbn. pose proof (zlen_nonneg _ i). nia. Qed.

(** *** The basic parsers *)

Lemma take_splits : forall n i, snd (n_take n i) = take n i /\ fst (n_take n i) = 1 /\
  match take n i with
  | Ok (rest, s) => zlen rest + zlen s = zlen i /\ (0 <= n -> zlen s = n)
  | _ => True
  end.
Proof.
  intros n i. split; [reflexivity|]. split; [reflexivity|]. unfold take, zlen.
  destruct (Z.of_nat (length i) <? n) eqn:E; [exact I|].
  apply Z.ltb_ge in E. rewrite skipn_length, firstn_length. lia.
Qed.

Lemma cheap_take : forall w n, 0 <= w -> 0 <= n -> cheap w (1 - w * n) 1 (n_take n).
Proof.
  intros w n Hw Hn i. pose proof (take_splits n i) as [E1 [E2 H]]. rewrite E1, E2.
  split; [lia|]. pose proof (zlen_nonneg _ i). destruct (take n i) as [[r s]|e|q]; [|nia|nia].
  destruct H as [H1 H2]. specialize (H2 Hn). nia.
Qed.

Lemma cheap_uint : forall w n, 0 <= w -> cheap w (1 - w * Z.of_nat n) 1 (n_le_uint n).
Proof.
  intros w n Hw i. unfold n_le_uint, step, lift. cbn [fst snd]. split; [lia|]. unfold le_uint.
  destruct (Nat.ltb_spec (length i) n).
  - pose proof (zlen_nonneg _ i). nia.
  - unfold zlen. rewrite skipn_length. nia.
Qed.

Lemma cheap_int : forall w n, 0 <= w -> cheap w (1 - w * Z.of_nat n) 1 (n_le_int n).
Proof.
  intros w n Hw i. pose proof (cheap_uint w n Hw i) as [_ H].
  unfold n_le_uint, n_le_int, step, lift in *. cbn [fst snd] in *. split; [lia|]. unfold le_int.
  destruct (le_uint n i) as [[r a]|e|q]; cbn [bind]; exact H.
Qed.

Lemma list_eqb_length : forall a b, list_eqb a b = true -> length a = length b.
Proof.
  induction a as [|x a IH]; intros [|y b] H; try discriminate; [reflexivity|].
  cbn in H. apply andb_prop in H. cbn. f_equal. now apply IH.
Qed.

Lemma cheap_tag : forall w t, 0 <= w -> cheap w (1 - w * zlen t) 1 (n_tag t).
Proof.
  intros w t Hw i. unfold n_tag, step, lift. cbn [fst snd]. split; [lia|]. unfold tag.
  destruct (list_eqb (firstn (length t) i) t) eqn:E.
  - apply list_eqb_length in E. rewrite firstn_length in E.
    unfold zlen. rewrite skipn_length. nia.
  - pose proof (zlen_nonneg _ i). nia.
Qed.

Lemma eco_prim : forall A w m (p : nparser A),
  cheap w (1 - w * m) 1 p -> 2 <= w -> 1 <= m -> eco w p.
Proof.
  intros A w m p H Hw Hm i. specialize (H i). destruct H as [Hn H].
  split; [exact Hn|]. destruct (snd (p i)) as [[r a]|e|q]; nia.
Qed.

Lemma eco_take : forall w n, 2 <= w -> 1 <= n -> eco w (n_take n).
Proof. intros w n Hw Hn. apply (eco_prim _ _ n); try lia. apply cheap_take; lia. Qed.
Lemma eco_uint : forall w n, 2 <= w -> (1 <= n)%nat -> eco w (n_le_uint n).
Proof. intros w n Hw Hn. apply (eco_prim _ _ (Z.of_nat n)); try lia. apply cheap_uint; lia. Qed.
Lemma eco_int : forall w n, 2 <= w -> (1 <= n)%nat -> eco w (n_le_int n).
Proof. intros w n Hw Hn. apply (eco_prim _ _ (Z.of_nat n)); try lia. apply cheap_int; lia. Qed.
Lemma eco_tag : forall w x t, 2 <= w -> eco w (n_tag (x :: t)).
Proof.
  intros w x t Hw. apply (eco_prim _ _ (zlen (x :: t))); try lia.
  - apply cheap_tag; lia.
  - unfold zlen. cbn [length]. lia.
Qed.

(** *** Repetition *)

Lemma eco_pmap : forall A B w (p : nparser A) (f : A -> B), eco w p -> eco w (n_pmap p f).
Proof. intros A B w p f H. unfold n_pmap. apply eco_bind; [exact H|]. intros a. apply lax_done. Qed.
Lemma lax_pmap : forall A B w (p : nparser A) (f : A -> B), lax w p -> lax w (n_pmap p f).
Proof. intros A B w p f H. unfold n_pmap. apply lax_bind; [exact H|]. intros a. apply lax_done. Qed.

Lemma lax_cond : forall A w b (p : nparser A), eco w p -> lax w (n_cond b p).
Proof.
  intros A w [|] p H.
  - apply eco_lax, (eco_pmap _ _ _ _ (@Some A)), H.
  - intros i. apply (lax_done _ _ None).
Qed.

Lemma lax_count : forall A w (p : nparser A) n, 0 <= w -> eco w p -> lax w (n_count p n).
Proof.
  intros A w p n Hw H. unfold n_count. induction (Z.to_nat n) as [|m IH].
  - apply (lax_done _ _ []).
  - cbn [n_count_nat].
    apply (cheap_bind _ _ w 0 2 0 2 0 2 (fun i => step (p i))
             (fun i a => let! (i, l) := n_count_nat p m i in done (i, a :: l))); try lia.
    + intros i. specialize (H i). destruct H as [Hn H]. unfold step. cbn [fst snd]. split; [lia|].
      destruct (snd (p i)) as [[r a]|e|q]; lia.
    + intros a. apply lax_bind; [exact IH|]. intros l. apply lax_done.
Qed.

Lemma total_many_loop : forall A w (p : nparser A), 0 <= w -> eco w p ->
  forall fuel acc, total w 2 (n_many_loop p fuel acc).
Proof.
  intros A w p Hw H fuel. induction fuel as [|f IH]; intros acc i; pose proof (zlen_nonneg _ i).
  - cbn. nia.
  - cbn [n_many_loop step]. pose proof (H i) as [Hn Hp].
    destruct (snd (p i)) as [[i' a]|[e|e]|q]; cbn [fst]; try lia.
    destruct (length i' =? length i)%nat; cbn [fst].
    + pose proof (zlen_nonneg _ i'). nia.
    + unfold steps. cbn [fst]. specialize (IH (a :: acc) i'). lia.
Qed.

Lemma total_many1 : forall A w (p : nparser A), 0 <= w -> eco w p -> total w 2 (n_many1 p).
Proof.
  intros A w p Hw H i. unfold n_many1, step. pose proof (H i) as [Hn Hp].
  destruct (snd (p i)) as [[i' a]|e|q]; cbn [fst]; try lia.
  unfold steps. cbn [fst]. pose proof (total_many_loop _ w p Hw H (S (length i')) [a] i'). lia.
Qed.

Lemma total_all_consuming : forall A w b (p : nparser A), total w b p ->
  total w b (n_all_consuming p).
Proof.
  intros A w b p H i. unfold n_all_consuming, nbind, steps. specialize (H i).
  destruct (snd (p i)) as [[[|x r] a]|e|q]; cbn [fst snd done lift]; lia.
Qed.

(** *** The scalars *)

Create HintDb cost.
#[local] Hint Extern 1 (0 <= _) => lia : cost.
#[local] Hint Extern 1 (2 <= _) => lia : cost.
#[local] Hint Extern 1 (1 <= _)%nat => lia : cost.
#[local] Hint Extern 1 (1 <= _) => lia : cost.
#[local] Hint Resolve eco_take eco_uint eco_int eco_tag eco_pmap lax_pmap lax_cond lax_count : cost.
#[local] Hint Extern 5 (cheap _ 0 2 _) => apply eco_lax : cost.

Ltac spend :=
  repeat first
    [ solve [auto 7 with cost]
    | apply lax_done
    | (apply lax_end; lia)
    | (apply lax_fail; lia)
    | (apply eco_bind; [solve [auto 7 with cost]|intros ?])
    | (apply lax_bind; [solve [auto 7 with cost]|intros ?])
    | match goal with |- cheap _ _ _ (fun i => if ?b then _ else _) => destruct b end
    | progress cbv zeta ].

Ltac cost d := intros; unfold d; spend.

Lemma eco_byte : forall w, 2 <= w -> eco w n_byte. Proof. intros. unfold n_byte. auto with cost. Qed.
Lemma eco_word : forall w, 2 <= w -> eco w n_word. Proof. intros. unfold n_word. auto with cost. Qed.
Lemma eco_short : forall w, 2 <= w -> eco w n_short. Proof. intros. unfold n_short. auto with cost. Qed.
Lemma eco_dword : forall w, 2 <= w -> eco w n_dword. Proof. intros. unfold n_dword. auto with cost. Qed.
Lemma eco_long : forall w, 2 <= w -> eco w n_long. Proof. intros. unfold n_long. auto with cost. Qed.
#[local] Hint Resolve eco_byte eco_word eco_short eco_dword eco_long : cost.
Lemma eco_parse_point : forall w , 2 <= w -> eco w n_parse_point.
Proof. cost n_parse_point. Qed.
#[local] Hint Resolve eco_parse_point : cost.
Lemma eco_parse_size : forall w , 2 <= w -> eco w n_parse_size.
Proof. cost n_parse_size. Qed.
#[local] Hint Resolve eco_parse_size : cost.
Lemma eco_parse_rect : forall w , 2 <= w -> eco w n_parse_rect.
Proof. cost n_parse_rect. Qed.
#[local] Hint Resolve eco_parse_rect : cost.
Lemma eco_dword_size : forall w f, 2 <= w -> eco w (n_dword_size f).
Proof. cost n_dword_size. Qed.
#[local] Hint Resolve eco_dword_size : cost.
Lemma eco_parse_dword_as_usize : forall w c, 2 <= w -> eco w (n_parse_dword_as_usize c).
Proof. cost n_parse_dword_as_usize. Qed.
#[local] Hint Resolve eco_parse_dword_as_usize : cost.
Lemma eco_parse_dword_as_u8 : forall w e, 2 <= w -> eco w (n_parse_dword_as_u8 e).
Proof. cost n_parse_dword_as_u8. Qed.
#[local] Hint Resolve eco_parse_dword_as_u8 : cost.
Lemma eco_parse_uuid : forall w , 2 <= w -> eco w n_parse_uuid.
Proof. cost n_parse_uuid. Qed.
#[local] Hint Resolve eco_parse_uuid : cost.
Lemma eco_fixed : forall w , 2 <= w -> eco w n_fixed.
Proof. cost n_fixed. Qed.
#[local] Hint Resolve eco_fixed : cost.
Lemma eco_parse_color : forall w , 2 <= w -> eco w n_parse_color.
Proof. cost n_parse_color. Qed.
#[local] Hint Resolve eco_parse_color : cost.
Lemma eco_parse_rgb : forall w , 2 <= w -> eco w n_parse_rgb.
Proof. cost n_parse_rgb. Qed.
#[local] Hint Resolve eco_parse_rgb : cost.
Lemma eco_parse_color_depth : forall w , 2 <= w -> eco w n_parse_color_depth.
Proof. cost n_parse_color_depth. Qed.
#[local] Hint Resolve eco_parse_color_depth : cost.
Lemma eco_parse_chunk_type : forall w , 2 <= w -> eco w n_parse_chunk_type.
Proof. cost n_parse_chunk_type. Qed.
#[local] Hint Resolve eco_parse_chunk_type : cost.
Lemma eco_parse_bool : forall w , 2 <= w -> eco w n_parse_bool.
Proof. cost n_parse_bool. Qed.
#[local] Hint Resolve eco_parse_bool : cost.

Lemma eco_slice : forall w, 2 <= w -> eco w (n_flat_map_p n_dword n_take).
Proof.
  intros w H. unfold n_flat_map_p.
  eapply (cheap_bind _ _ w (1 - w * 4) 1 1 1); try lia.
  - apply (cheap_uint w 4). lia.
  - intros n i. pose proof (take_splits n i) as [E1 [E2 T]]. rewrite E1, E2.
    split; [lia|]. pose proof (zlen_nonneg _ i). destruct (take n i) as [[r s]|e|q]; try nia.
    pose proof (zlen_nonneg _ s). nia.
Qed.

Lemma eco_parse_string : forall w, 2 <= w -> eco w n_parse_string.
Proof.
  intros w H i. unfold n_parse_string, n_flat_map_p, nbind, steps.
  pose proof (cheap_uint w 2 ltac:(lia) i) as [Hn Hp]. fold n_word in Hn, Hp.
  destruct (snd (n_word i)) as [[r n]|e|q]; cbn [fst snd]; try lia.
  pose proof (take_splits n r) as [E1 [E2 T]]. rewrite E1, E2.
  destruct (take n r) as [[r' s]|e|q]; cbn [fst snd]; try (pose proof (zlen_nonneg _ r); nia).
  destruct T as [T _]. pose proof (zlen_nonneg _ s). pose proof (zlen_nonneg _ r').
  destruct (from_utf8 s) as [[v l]|]; cbn [steps fst snd done lift]; split; try lia; nia.
Qed.
#[local] Hint Resolve eco_parse_string : cost.

Lemma eco_parse_property : forall w p, 2 <= w -> eco w p -> eco w (n_parse_property p).
Proof. cost n_parse_property. Qed.
#[local] Hint Resolve eco_parse_property : cost.

Ltac eta := match goal with |- cheap ?w ?k ?b (fun i => n_pmap ?p ?f i) =>
  change (cheap w k b (n_pmap p f)) end.

Lemma eco_values : forall w c, 2 <= w -> forall fuel,
  eco w (n_parse_value c fuel) /\ eco w (n_parse_vector c fuel) /\
  eco w (n_parse_properties_map c fuel).
Proof.
  intros w c H fuel. induction fuel as [|f [IH1 [IH2 IH3]]].
  - repeat split; cbn; pose proof (zlen_nonneg _ i); nia.
  - split; [|split]; cbn [n_parse_value n_parse_vector n_parse_properties_map];
      (apply eco_bind; [solve [auto with cost]|intros ?]).
    + destruct (property_type_from_repr a) as [t|]; [|apply lax_fail; lia].
      destruct t; eta; solve [auto 8 with cost].
    + apply lax_bind; [solve [auto with cost]|intros ?].
      destruct (_ =? 0); [eta; solve [auto 7 with cost]|].
      destruct (property_type_from_repr a0) as [t|]; [|apply lax_fail; lia].
      destruct t; eta; solve [auto 8 with cost].
    + spend.
Qed.

Lemma eco_parse_properties_map : forall w c fuel, 2 <= w -> eco w (n_parse_properties_map c fuel).
Proof. intros w c fuel H. now apply eco_values. Qed.

Lemma cheap_dword_as_usize : forall w c, 2 <= w -> cheap w (1 - w * 4) 1 (n_parse_dword_as_usize c).
Proof.
  intros w c H. unfold n_parse_dword_as_usize.
  eapply (cheap_bind _ _ w (1 - w * 4) 1 0 2); try lia.
  - apply (cheap_uint w 4). lia.
  - intros a. destruct (a <? _); [apply lax_done|apply lax_fail; lia].
Qed.

(** A slice of the input is taken and looked at on its own. *)
Lemma cheap_inner : forall A B w b n (f : bytes -> nout A) (g : bytes -> bytes -> nout A -> npres B),
  0 < w -> 0 <= b -> total w b f ->
  (forall r s m, fst (g r s m) = fst m /\
     match snd (g r s m) with Ok (r', _) => r' = r | _ => True end) ->
  cheap (w + 1) (b + 1) (b + 1)
    (fun i => nbind (n_take n i) (fun y => let (r, s) := y in g r s (f s))).
Proof.
  intros A B w b n f g Hw Hb Hf Hg i. unfold nbind, steps.
  pose proof (take_splits n i) as [E1 [E2 T]]. rewrite E1, E2.
  pose proof (zlen_nonneg _ i).
  destruct (take n i) as [[r s]|e|q]; cbn [fst snd]; try nia.
  destruct T as [T _]. specialize (Hg r s (f s)). destruct Hg as [G1 G2]. specialize (Hf s).
  rewrite G1. pose proof (zlen_nonneg _ r). pose proof (zlen_nonneg _ s).
  split; [lia|]. destruct (snd (g r s (f s))) as [[r' x]|e|q]; [subst r'|..]; nia.
Qed.

Lemma eco_parse_properties_maps : forall c, eco 3 (n_parse_properties_maps c).
Proof.
  intros c. unfold n_parse_properties_maps.
  eapply (cheap_bind _ _ 3 (1 - 3 * 4) 1 (-1) 2); try lia; [apply cheap_dword_as_usize; lia|intros a].
  eapply (cheap_bind _ _ 3 (1 - 3 * 4) 1 3 3); try lia; [apply cheap_dword_as_usize; lia|intros k].
  intros i. destruct (usizec c (a - 8)) as [n|e|q] eqn:E;
    [|pose proof (zlen_nonneg _ i); unfold nbind, steps, lift; cbn [fst snd]; lia..].
  pose proof (cheap_inner _ _ 2 2 n
    (fun s => n_count (n_parse_properties_map c (S (length s))) k s)
    (fun (r s : bytes) m => match m with
       | (k, Ok x) => (k, Ok (r, inl x))
       | (k, Err e) => (k, Ok (r, inr e))
       | (k, Panic p) => (k, Panic p) end) ltac:(lia) ltac:(lia)) as H.
  assert (F : total 2 2 (fun s => n_count (n_parse_properties_map c (S (length s))) k s)).
  { intros s. refine (cheap_total _ 2 0 2 _ 2 (lax_count _ 2 _ k _ _) _ _ _ s); try lia.
    apply eco_parse_properties_map. lia. }
  specialize (H F). unfold nbind at 1, steps. cbn [lift snd fst].
  rewrite Z.add_0_l. apply H.
  intros r s [m [x|e|q]]; split; reflexivity || exact I.
Qed.
#[local] Hint Resolve eco_parse_properties_maps : cost.

Lemma eco_parse_user_data_chunk : forall c, eco 3 (n_parse_user_data_chunk c).
Proof. cost n_parse_user_data_chunk. Qed.

Lemma eco_parse_packet : forall w , 2 <= w -> eco w n_parse_packet.
Proof. cost n_parse_packet. Qed.
#[local] Hint Resolve eco_parse_packet : cost.
Lemma eco_parse_old_palette_chunk : forall w , 2 <= w -> eco w n_parse_old_palette_chunk.
Proof. cost n_parse_old_palette_chunk. Qed.
#[local] Hint Resolve eco_parse_old_palette_chunk : cost.
Lemma eco_parse_palette_entry : forall w , 2 <= w -> eco w n_parse_palette_entry.
Proof. cost n_parse_palette_entry. Qed.
#[local] Hint Resolve eco_parse_palette_entry : cost.
Lemma eco_parse_palette_chunk : forall w c, 2 <= w -> eco w (n_parse_palette_chunk c).
Proof. cost n_parse_palette_chunk. Qed.
#[local] Hint Resolve eco_parse_palette_chunk : cost.
Lemma eco_parse_layer_chunk : forall w , 2 <= w -> eco w n_parse_layer_chunk.
Proof. cost n_parse_layer_chunk. Qed.
#[local] Hint Resolve eco_parse_layer_chunk : cost.
Lemma eco_parse_cel_extra_chunk : forall w , 2 <= w -> eco w n_parse_cel_extra_chunk.
Proof. cost n_parse_cel_extra_chunk. Qed.
#[local] Hint Resolve eco_parse_cel_extra_chunk : cost.
Lemma eco_parse_tiles : forall w , 2 <= w -> eco w n_parse_tiles.
Proof. intros w H. apply eco_slice. exact H. Qed.
#[local] Hint Resolve eco_parse_tiles : cost.
Lemma eco_parse_color_profile : forall w , 2 <= w -> eco w n_parse_color_profile.
Proof.
  intros w H. unfold n_parse_color_profile. do 4 (apply eco_bind + apply eco_lax, eco_bind; [solve [auto with cost]|intros ?]; cbv zeta).
  match goal with |- context [color_profile_type_from ?w] => destruct (color_profile_type_from w) end;
    try (intros i; cbn; lia).
  apply lax_bind; [|intros ?; apply lax_done].
  apply eco_lax, eco_pmap, eco_slice, H.
Qed.
#[local] Hint Resolve eco_parse_color_profile : cost.
Lemma eco_parse_external_file : forall w , 2 <= w -> eco w n_parse_external_file.
Proof. cost n_parse_external_file. Qed.
#[local] Hint Resolve eco_parse_external_file : cost.
Lemma eco_parse_external_files_chunk : forall w c, 2 <= w -> eco w (n_parse_external_files_chunk c).
Proof. cost n_parse_external_files_chunk. Qed.
#[local] Hint Resolve eco_parse_external_files_chunk : cost.
Lemma eco_parse_mask_chunk : forall w , 2 <= w -> eco w n_parse_mask_chunk.
Proof. cost n_parse_mask_chunk. Qed.
#[local] Hint Resolve eco_parse_mask_chunk : cost.
Lemma eco_parse_nine_patch : forall w , 2 <= w -> eco w n_parse_nine_patch.
Proof. cost n_parse_nine_patch. Qed.
#[local] Hint Resolve eco_parse_nine_patch : cost.
Lemma eco_parse_pivot : forall w , 2 <= w -> eco w n_parse_pivot.
Proof. cost n_parse_pivot. Qed.
#[local] Hint Resolve eco_parse_pivot : cost.
Lemma eco_parse_slice_key : forall w flags, 2 <= w -> eco w (n_parse_slice_key flags).
Proof. cost n_parse_slice_key. Qed.
#[local] Hint Resolve eco_parse_slice_key : cost.
Lemma eco_parse_slice_chunk : forall w c, 2 <= w -> eco w (n_parse_slice_chunk c).
Proof. cost n_parse_slice_chunk. Qed.
#[local] Hint Resolve eco_parse_slice_chunk : cost.
Lemma eco_parse_tag : forall w , 2 <= w -> eco w n_parse_tag.
Proof. cost n_parse_tag. Qed.
#[local] Hint Resolve eco_parse_tag : cost.
Lemma eco_parse_tags_chunk : forall w , 2 <= w -> eco w n_parse_tags_chunk.
Proof. cost n_parse_tags_chunk. Qed.
#[local] Hint Resolve eco_parse_tags_chunk : cost.
Lemma eco_parse_tileset_external_file : forall w , 2 <= w -> eco w n_parse_tileset_external_file.
Proof. cost n_parse_tileset_external_file. Qed.
#[local] Hint Resolve eco_parse_tileset_external_file : cost.
Lemma eco_parse_tileset_chunk : forall w , 2 <= w -> eco w n_parse_tileset_chunk.
Proof. cost n_parse_tileset_chunk. Qed.
#[local] Hint Resolve eco_parse_tileset_chunk : cost.

Definition fair {A} w (f : bytes -> nout A) := forall i,
  0 <= fst (f i) /\ match snd (f i) with Ok _ => fst (f i) <= w * zlen i | _ => fst (f i) <= w * zlen i + 2 end.

Lemma fair_bind : forall A B w (p : nparser A) (body : bytes -> A -> nout B),
  eco w p -> (forall a, fair w (fun i => body i a)) ->
  fair w (fun i => nbind (p i) (fun y => let (i, a) := y in body i a)).
Proof.
  intros A B w p body Hp Hb i. unfold nbind, steps. specialize (Hp i). destruct Hp as [Hn Hp].
  destruct (snd (p i)) as [[r a]|e|q]; cbn [fst snd]; try lia.
  specialize (Hb a r). cbn beta in Hb. destruct Hb as [Hm Hb].
  split; [lia|]. destruct (snd (body r a)) as [x|e|q]; lia.
Qed.

Lemma fair_done : forall A w (g : bytes -> A), 0 <= w -> fair w (fun i => done (g i)).
Proof. intros A w g H i. pose proof (zlen_nonneg _ i). unfold done. cbn [fst snd]. nia. Qed.

Lemma fair_cel_content : forall w t, 2 <= w -> fair w (n_parse_cel_content t).
Proof.
  intros w t H. destruct t; cbn [n_parse_cel_content];
    repeat (apply fair_bind; [solve [auto with cost]|intros ?]); apply fair_done; lia.
Qed.

Lemma lax_cel_content : forall w t (f : bytes -> cel_content -> cel_chunk), 2 <= w ->
  lax w (fun i => let! x := n_parse_cel_content t i in done ([], f i x)).
Proof.
  intros w t f H i. pose proof (fair_cel_content w t H i) as [Hn T].
  unfold nbind, steps. pose proof (zlen_nonneg _ i).
  destruct (snd (n_parse_cel_content t i)) as [x|e|q]; unfold done; cbn [fst snd]; split; try lia.
  change (zlen (@nil Z)) with 0. lia.
Qed.

Lemma eco_parse_cel_chunk : forall w, 2 <= w -> eco w n_parse_cel_chunk.
Proof. cost n_parse_cel_chunk. apply (lax_cel_content w _ (fun _ x => _)). assumption. Qed.
#[local] Hint Resolve eco_parse_cel_chunk : cost.

Lemma total_just : forall A w b (f : A -> chunk) p, total w b p -> total w b (fun i => n_just f (p i)).
Proof.
  intros A w b f p H i. specialize (H i). unfold n_just, nbind, steps.
  destruct (snd (p i)) as [[r a]|e|q]; cbn; lia.
Qed.

Lemma total_parse_chunk_data : forall c t, total 3 2 (n_parse_chunk_data c t).
Proof.
  intros c [t|t].
  - destruct t; cbn [n_parse_chunk_data];
      try (apply total_just; eapply cheap_total with (k := -1) (b := 1); try lia;
           first [apply eco_parse_user_data_chunk | solve [auto with cost]]).
    intros i. pose proof (zlen_nonneg _ i). cbn [n_parse_chunk_data done fst]. lia.
  - intros i. pose proof (zlen_nonneg _ i). cbn [n_parse_chunk_data done fst]. lia.
Qed.

Lemma cheap_dword_size : forall w f, 2 <= w -> cheap w (1 - w * 4) 1 (n_dword_size f).
Proof.
  intros w f H. unfold n_dword_size.
  eapply (cheap_bind _ _ w (1 - w * 4) 1 0 2); try lia.
  - apply (cheap_uint w 4). lia.
  - intros a. destruct (4 <=? a); [apply lax_done|apply lax_fail; lia].
Qed.

Lemma eco_parse_chunk : forall c, eco 4 (n_parse_chunk c).
Proof.
  intros c. unfold n_parse_chunk.
  eapply (cheap_bind _ _ 4 (1 - 4 * 4) 1 3 3); try lia; [apply cheap_dword_size; lia|intros a].
  intros i. destruct (u32c c (a - 4)) as [n|e|q] eqn:E;
    [|pose proof (zlen_nonneg _ i); unfold nbind, steps, lift; cbn [fst snd]; lia..].
  pose proof (cheap_inner _ _ 3 2 n
    (fun s => let! (d, t) := n_parse_chunk_type s in n_parse_chunk_data c t d)
    (fun (r s : bytes) m => let! x := m in done (r, x)) ltac:(lia) ltac:(lia)) as H.
  assert (F : total 3 2 (fun s => let! (d, t) := n_parse_chunk_type s in n_parse_chunk_data c t d)).
  { apply (total_bind _ _ 3 (-1) 1 2 2 n_parse_chunk_type (fun d t => n_parse_chunk_data c t d));
      try lia; [auto with cost|]. intros t. apply total_parse_chunk_data. }
  specialize (H F). change (lift (Ok n)) with (done n : nout Z). cbv beta. rewrite nbind_done.
  refine (eq_ind _ (fun m => 0 <= fst m /\ match snd m with
    | Ok (rest, _) => fst m + 4 * zlen rest <= 4 * zlen i + 3
    | _ => fst m <= 4 * zlen i + 3 end) (H _ i) _ _).
  - intros r s [m [x|e|q]]; unfold nbind, steps, done; cbn [fst snd]; split; try reflexivity; try exact I; lia.
  - apply nbind_ext. intros [r s].
    rewrite nbind_assoc. apply nbind_ext. now intros [d t].
Qed.

Lemma eco_parse_rawframe : forall c, eco 5 (n_parse_rawframe c).
Proof.
  intros c. unfold n_parse_rawframe.
  eapply (cheap_bind _ _ 5 (1 - 5 * 4) 1 3 3); try lia; [apply cheap_dword_size; lia|intros a].
  intros i. destruct (u32c c (a - 4)) as [n|e|q] eqn:E;
    [|pose proof (zlen_nonneg _ i); unfold nbind, steps, lift; cbn [fst snd]; lia..].
  set (inner := fun input : bytes =>
    let! (input, _) := n_tag FRAME_MAGIC_NUMBER input in
    let! (input, chunk_count) := n_word input in
    let! (input, duration) := n_word input in
    let! (input, _) := n_take 2 input in
    let! (input, chunk_count32) := n_parse_dword_as_usize c input in
    let chunk_count := if chunk_count32 =? 0 then chunk_count else chunk_count32 in
    let! (input, chunks) := n_parse_chunks c chunk_count input in
    done (input, {| rf_duration := duration; rf_chunks := chunks |})).
  assert (F : total 4 2 inner).
  { apply (cheap_total _ 4 (-1) 1); try lia. unfold inner, FRAME_MAGIC_NUMBER.
    apply eco_bind; [auto with cost|intros ?].
    do 4 (apply lax_bind; [solve [auto with cost]|intros ?]). cbv zeta.
    apply lax_bind; [|intros ?; apply lax_done].
    apply lax_count; [lia|]. apply eco_parse_chunk. }
  pose proof (cheap_inner _ _ 4 2 n inner
    (fun (r s : bytes) m => let! (_, x) := m in done (r, x)) ltac:(lia) ltac:(lia) F) as H.
  change (lift (Ok n)) with (done n : nout Z). cbv beta. rewrite nbind_done.
  refine (eq_ind _ (fun m => 0 <= fst m /\ match snd m with
    | Ok (rest, _) => fst m + 5 * zlen rest <= 5 * zlen i + 3
    | _ => fst m <= 5 * zlen i + 3 end) (H _ i) _ _).
  - intros r s [m [[y x]|e|q]]; unfold nbind, steps, done; cbn [fst snd]; split; try reflexivity; try exact I; lia.
  - apply nbind_ext. intros [r s]. unfold inner.
    do 5 (rewrite nbind_assoc; apply nbind_ext; intros [? ?]). cbv zeta.
    rewrite nbind_assoc. apply nbind_ext. intros [? ?]. now rewrite nbind_done.
Qed.

Lemma total_parse_frames : forall c, total 5 2 (n_parse_frames c).
Proof.
  intros c. apply total_all_consuming, total_many1; [lia|]. apply eco_parse_rawframe.
Qed.

Lemma cheap_parse_header : cheap 5 3 3 n_parse_header.
Proof.
  set (inner := fun input : bytes =>
    let! (input, file_size) := n_dword input in
    let! (input, _) := n_tag HEADER_MAGIC_NUMBER input in
    let! (input, frames) := n_word input in
    let! (input, width) := n_word input in
    let! (input, height) := n_word input in
    let! (input, color_depth) := n_parse_color_depth input in
    let! (input, flags) := n_dword input in
    let! (input, speed) := n_word input in
    let! (input, _) := n_tag [0; 0; 0; 0] input in
    let! (input, _) := n_tag [0; 0; 0; 0] input in
    let! (input, transparent_index) := n_byte input in
    let! (input, _) := n_take 3 input in
    let! (input, color_count) := n_word input in
    let! (input, pixel_width) := n_byte input in
    let! (input, pixel_height) := n_byte input in
    let! (input, grid_x) := n_short input in
    let! (input, grid_y) := n_short input in
    let! (input, grid_width) := n_word input in
    let! (input, grid_height) := n_word input in
    let! (input, _) := n_take 84 input in
    if negb (length input =? 0)%nat then stop PAssert else
    done (input,
        {| h_file_size := file_size; h_frames := frames; h_width := width;
           h_height := height; h_color_depth := color_depth; h_flags := flags;
           h_speed := speed; h_transparent_index := transparent_index;
           h_color_count := color_count; h_pixel_width := pixel_width;
           h_pixel_height := pixel_height; h_grid_x := grid_x; h_grid_y := grid_y;
           h_grid_width := grid_width; h_grid_height := grid_height |})).
  assert (F : total 2 2 inner).
  { apply (cheap_total _ 2 (-1) 1); try lia. unfold inner, HEADER_MAGIC_NUMBER.
    apply eco_bind; [auto with cost|intros ?].
    do 19 (apply lax_bind; [solve [auto with cost]|intros ?]).
    intros i. pose proof (zlen_nonneg _ i).
    destruct (negb (length i =? 0)%nat); unfold stop, done; cbn [fst snd]; lia. }
  pose proof (cheap_inner _ _ 2 2 128 inner
    (fun (r s : bytes) m => let! (_, x) := m in done (r, x)) ltac:(lia) ltac:(lia) F) as H.
  intros i.
  assert (C : cheap (2 + 1) (2 + 1) (2 + 1) n_parse_header).
  { intros j.
    refine (eq_ind _ (fun m => 0 <= fst m /\ match snd m with
      | Ok (rest, _) => fst m + (2 + 1) * zlen rest <= (2 + 1) * zlen j + (2 + 1)
      | _ => fst m <= (2 + 1) * zlen j + (2 + 1) end) (H _ j) _ _).
    - intros r s [m [[y x]|e|q]]; unfold nbind, steps, done; cbn [fst snd]; split; try reflexivity; try exact I; lia.
    - unfold n_parse_header. apply nbind_ext. intros [r s]. unfold inner.
      do 20 (rewrite nbind_assoc; apply nbind_ext; intros [? ?]).
      match goal with |- context [negb ?b] => destruct (negb b) end; [reflexivity|].
      now rewrite nbind_done. }
  pose proof (same_parse_header i) as S.
  specialize (C i). destruct C as [Hn C]. split; [exact Hn|]. pose proof (zlen_nonneg _ i).
  destruct (snd (n_parse_header i)) as [[r a]|e|q]; [|lia|lia].
  assert (zlen r <= zlen i); [|lia].
  symmetry in S. revert S. unfold parse_header, bind at 1.
  pose proof (take_splits 128 i) as [_ [_ T]].
  destruct (take 128 i) as [[r' s]|e|q]; try discriminate. destruct T as [T _].
  intros S. assert (r = r').
  { revert S. clear. intros S.
    repeat match type of S with bind ?m _ = _ =>
      destruct m as [[? ?]|?|?]; cbn [bind] in S; [|discriminate S|discriminate S] end.
    destruct (negb _) in S; [discriminate S|]. now inversion S. }
  subst. pose proof (zlen_nonneg _ s). lia.
Qed.

Lemma raw_file_steps : forall c i,
  snd (n_parse_raw_file c i) = parse_raw_file c i /\
  0 <= fst (n_parse_raw_file c i) <= 5 * zlen i + 5.
Proof.
  intros c i. split; [apply same_parse_raw_file|].
  refine (total_bind _ _ 5 3 3 2 5 n_parse_header (fun i h => _) cheap_parse_header _ _ _ i); try lia.
  intros h j. pose proof (total_parse_frames c j) as T. unfold nbind, steps.
  destruct (snd (n_parse_frames c j)) as [[r a]|e|q]; unfold done; cbn [fst snd]; lia.
Qed.
