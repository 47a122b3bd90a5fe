(** Which errors are reported (C85, C86). *)
From Verif.Model Require Import Loader.
From Verif.Spec Require Import FileSpec Errors.
From Verif.Proofs Require Import Utf8Facts ParseLib ChunkFacts ChunkFacts2 RawFacts FileProps BinaryFinal FileFinal.
From Verif.Tests Require Import Build.
Local Ltac Zify.zify_post_hook ::= Z.div_mod_to_equations.

(** ** Parsers that fail only with an [Err::Error] *)
Definition soft (i : bytes) (e : nom_err) : Prop := exists x, e = NError x /\ explained i x.
Definition calm {A} (i : bytes) (m : pres A) : Prop :=
  match m with Ok (r, _) => exists e, i = e ++ r | Err e => soft i e | Panic _ => True end.

Lemma infix_app s a b : infix s b -> infix s (a ++ b).
Proof. intros (x & y & ->). exists (a ++ x), y. now rewrite <- app_assoc. Qed.
Lemma infix_app_l s a b : infix s a -> infix s (a ++ b).
Proof. intros (x & y & ->). exists x, (y ++ b). now rewrite <- !app_assoc. Qed.
Lemma explained_infix a b x : (forall s, infix s b -> infix s a) -> explained b x -> explained a x.
Proof.
  intro H. destruct x; cbn; auto.
  - intros (s & H1 & H2 & H3). eauto.
  - destruct k; auto.
Qed.
Lemma soft_app a b e : soft b e -> soft (a ++ b) e.
Proof. intros (x & -> & H). exists x. split; [reflexivity|]. eapply explained_infix, H. intro. apply infix_app. Qed.

Lemma calm_bind {A B} i (m : pres A) (k : bytes * A -> pres B) : is_bytes i -> calm i m ->
  (forall r a, is_bytes r -> calm r (k (r, a))) -> calm i (bind m k).
Proof.
  intros Hi Hm Hk. destruct m as [[r a]|e|q]; cbn in *; [|exact Hm|exact I].
  destruct Hm as (e & ->). apply is_bytes_app_r in Hi. specialize (Hk r a Hi).
  destruct (k (r, a)) as [[r' b]|e'|q]; cbn in *; [| |exact I].
  - destruct Hk as (e' & ->). exists (e ++ e'). now rewrite <- app_assoc.
  - now apply soft_app.
Qed.
Lemma calm_ok {A} r (a : A) : calm r (Ok (r, a)).
Proof. now exists []. Qed.
Lemma calm_end {A} r (a : A) : calm r (Ok ([], a)).
Proof. exists r. now rewrite app_nil_r. Qed.
Lemma eof_soft i : soft i (NError (ENom i KEof)).
Proof. eexists. split; [reflexivity|]. exists [], []. cbn. now rewrite app_nil_r. Qed.

Lemma calm_uint n i : calm i (le_uint n i).
Proof.
  unfold le_uint. destruct (_ <? _)%nat; [apply eof_soft|]. cbn. exists (firstn n i). now rewrite firstn_skipn.
Qed.
Lemma calm_int n i : is_bytes i -> calm i (le_int n i).
Proof. intro H. apply calm_bind; [exact H|apply calm_uint|]. intros. apply calm_ok. Qed.
Lemma calm_byte i : calm i (byte i). Proof. apply calm_uint. Qed.
Lemma calm_word i : calm i (word i). Proof. apply calm_uint. Qed.
Lemma calm_dword i : calm i (dword i). Proof. apply calm_uint. Qed.
Lemma calm_short i : is_bytes i -> calm i (short i). Proof. apply calm_int. Qed.
Lemma calm_long i : is_bytes i -> calm i (long i). Proof. apply calm_int. Qed.
Lemma calm_take n i : calm i (take n i).
Proof.
  unfold take. destruct (_ <? _); [apply eof_soft|]. cbn. eexists. symmetry. apply firstn_skipn.
Qed.
Lemma calm_pmap {A B} (p : parser A) (f : A -> B) i : is_bytes i -> calm i (p i) -> calm i (pmap p f i).
Proof. intros H Hp. apply calm_bind; [exact H|exact Hp|]. intros. apply calm_ok. Qed.
Lemma calm_cond {A} b (p : parser A) i : is_bytes i -> calm i (p i) -> calm i (cond b p i).
Proof. intros H Hp. unfold cond. destruct b; [now apply calm_pmap|apply calm_ok]. Qed.
Lemma calm_flat_map {A B} (p : parser A) (f : A -> parser B) i : is_bytes i -> calm i (p i) ->
  (forall a r, is_bytes r -> calm r (f a r)) -> calm i (flat_map_p p f i).
Proof. intros H Hp Hf. apply calm_bind; [exact H|exact Hp|]. intros. now apply Hf. Qed.
Lemma calm_count {A} (p : parser A) n i : (forall i, is_bytes i -> calm i (p i)) -> is_bytes i ->
  calm i (count p n i).
Proof.
  intro Hp. unfold count. generalize (Z.to_nat n) as m. intro m. revert i.
  induction m as [|m IH]; intros i Hi; cbn [count_nat]; [apply calm_ok|].
  apply calm_bind; [exact Hi|now apply Hp|]. intros r a Hr. cbv beta iota.
  apply calm_bind; [exact Hr|now apply IH|]. intros. apply calm_ok.
Qed.
Lemma calm_usize c i : cfg_ok c -> is_bytes i -> calm i (parse_dword_as_usize c i).
Proof.
  intros Hc Hi. pose proof (usize_pow c Hc) as (Hp & _).
  unfold parse_dword_as_usize. destruct (dword i) as [[r v]|e|q] eqn:E; cbn [bind].
  - apply dword_sound in E as (e & -> & Hv & ->); [|exact Hi].
    apply u32_lt in Hv. replace (v <? _) with true by lia. now exists (le 4 v).
  - pose proof (calm_dword i) as H. rewrite E in H. exact H.
  - exact I.
Qed.
Lemma calm_string i : is_bytes i -> calm i (parse_string i).
Proof.
  intro Hi. unfold parse_string.
  pose proof (calm_flat_map word take i Hi (calm_word i) (fun n r _ => calm_take n r)) as H.
  destruct (flat_map_p word take i) as [[r s]|e|q] eqn:E; cbn [bind]; [|exact H|exact I].
  destruct (from_utf8 s) as [[p l]|] eqn:Hu; [|exact H].
  unfold flat_map_p in E. pbind E. apply word_sound in E0 as (e & -> & Hn & ->); [|exact Hi].
  apply take_inv in E as [-> Hl]; [|apply Hn].
  exists (EUtf8 p l). split; [reflexivity|]. exists s. rewrite Hl. split; [exact Hn|]. split.
  - now apply from_utf8_fault.
  - exists [], r. cbn [app]. now rewrite app_assoc.
Qed.

#[local] Hint Resolve calm_byte calm_word calm_dword calm_short calm_long calm_take calm_string calm_usize
  calm_ok calm_end calm_cond calm_pmap calm_count calm_flat_map : calm.
Ltac calm_steps :=
  repeat (apply calm_bind; [assumption|solve [auto 6 with calm]|intros ? ? ?; cbv beta iota zeta]);
  try solve [auto with calm].

Lemma calm_fixed i : is_bytes i -> calm i (fixed i).
Proof. intro H. unfold fixed. repeat (apply calm_bind; [assumption|apply calm_uint|intros ? ? ?; cbv beta iota]). apply calm_ok. Qed.
Lemma calm_color i : is_bytes i -> calm i (parse_color i).
Proof. intro H. unfold parse_color. calm_steps. Qed.
Lemma calm_rgb i : is_bytes i -> calm i (parse_rgb i).
Proof. intro H. unfold parse_rgb. calm_steps. Qed.
#[local] Hint Resolve calm_fixed calm_color calm_rgb : calm.
Lemma calm_packet i : is_bytes i -> calm i (parse_packet i).
Proof. intro H. unfold parse_packet. calm_steps. Qed.
#[local] Hint Resolve calm_packet : calm.
Lemma calm_old_palette i : is_bytes i -> calm i (parse_old_palette_chunk i).
Proof. intro H. unfold parse_old_palette_chunk. calm_steps. Qed.
Lemma calm_palette_entry i : is_bytes i -> calm i (parse_palette_entry i).
Proof. intro H. unfold parse_palette_entry. calm_steps. Qed.
Lemma calm_layer i : is_bytes i -> calm i (parse_layer_chunk i).
Proof. intro H. unfold parse_layer_chunk. calm_steps. Qed.
Lemma calm_cel i : is_bytes i -> calm i (parse_cel_chunk i).
Proof.
  intro H. unfold parse_cel_chunk. calm_steps.
  match goal with |- calm ?r (bind (parse_cel_content ?ct ?r) _) =>
    enough (G : match parse_cel_content ct r with Err e => soft r e | _ => True end);
    [destruct (parse_cel_content ct r); cbn [bind]; [apply calm_end|exact G|exact I]|] end.
  assert (W : forall A i (m : pres A) (k : bytes * A -> out nom_err cel_content), is_bytes i -> calm i m ->
    (forall r a, is_bytes r -> match k (r, a) with Err e => soft r e | _ => True end) ->
    match bind m k with Err e => soft i e | _ => True end).
  { clear. intros A i m k Hi Hm Hk. destruct m as [[r a]|e|q]; cbn in *; [|exact Hm|exact I].
    destruct Hm as (e & ->). apply is_bytes_app_r in Hi. specialize (Hk r a Hi).
    destruct (k (r, a)); auto. now apply soft_app. }
  unfold parse_cel_content.
  match goal with |- match (match ?ct with _ => _ end) with _ => _ end => destruct ct end;
    repeat (apply W; [assumption|solve [auto 6 with calm]|intros ? ? ?; cbv beta iota zeta]); exact I.
Qed.
Lemma calm_cel_extra i : is_bytes i -> calm i (parse_cel_extra_chunk i).
Proof. intro H. unfold parse_cel_extra_chunk. calm_steps. Qed.
Lemma calm_color_profile i : is_bytes i -> calm i (parse_color_profile i).
Proof.
  intro H. unfold parse_color_profile. calm_steps.
  apply calm_bind; [assumption| |intros; apply calm_ok].
  match goal with |- calm _ (match ?ct with _ => _ end) => destruct ct end; auto 8 with calm.
Qed.
Lemma calm_external_file i : is_bytes i -> calm i (parse_external_file i).
Proof. intro H. unfold parse_external_file. calm_steps. Qed.
#[local] Hint Resolve calm_palette_entry calm_external_file : calm.
Lemma calm_external_files c i : cfg_ok c -> is_bytes i -> calm i (parse_external_files_chunk c i).
Proof. intros Hc H. unfold parse_external_files_chunk. calm_steps. Qed.
Lemma calm_mask i : is_bytes i -> calm i (parse_mask_chunk i).
Proof. intro H. unfold parse_mask_chunk. calm_steps. Qed.
Lemma calm_nine_patch i : is_bytes i -> calm i (parse_nine_patch i).
Proof. intro H. unfold parse_nine_patch. calm_steps. Qed.
Lemma calm_pivot i : is_bytes i -> calm i (parse_pivot i).
Proof. intro H. unfold parse_pivot. calm_steps. Qed.
#[local] Hint Resolve calm_nine_patch calm_pivot : calm.
Lemma calm_slice_key f i : is_bytes i -> calm i (parse_slice_key f i).
Proof. intro H. unfold parse_slice_key. calm_steps. Qed.
#[local] Hint Resolve calm_slice_key : calm.
Lemma calm_slice c i : cfg_ok c -> is_bytes i -> calm i (parse_slice_chunk c i).
Proof. intros Hc H. unfold parse_slice_chunk. calm_steps. Qed.
Lemma calm_tileset_external i : is_bytes i -> calm i (parse_tileset_external_file i).
Proof. intro H. unfold parse_tileset_external_file. calm_steps. Qed.
Lemma calm_tiles i : is_bytes i -> calm i (parse_tiles i).
Proof. intro H. unfold parse_tiles. auto with calm. Qed.
#[local] Hint Resolve calm_tileset_external calm_tiles : calm.
Lemma calm_tileset i : is_bytes i -> calm i (parse_tileset_chunk i).
Proof. intro H. unfold parse_tileset_chunk. calm_steps. Qed.
Lemma calm_properties_maps c i : cfg_ok c -> is_bytes i -> calm i (parse_properties_maps c i).
Proof.
  intros Hc H. unfold parse_properties_maps. calm_steps.
  match goal with |- calm _ (bind (usizec c ?z) _) => assert (G : forall e, @usizec nom_err c z <> Err e) end.
  { intro e. unfold usizec, checked. destruct (_ && _); [discriminate|]. destruct (debug c); discriminate. }
  match goal with |- calm _ (bind ?m _) => destruct m as [n|e|q]; cbn [bind]; [|now destruct (G e)|exact I] end.
  calm_steps. destruct (count _ _ _); [apply calm_ok|apply calm_ok|exact I].
Qed.
#[local] Hint Resolve calm_properties_maps : calm.
Lemma calm_user_data c i : cfg_ok c -> is_bytes i -> calm i (parse_user_data_chunk c i).
Proof. intros Hc H. unfold parse_user_data_chunk. calm_steps. Qed.

(** ** Chunk data that fails with an [Err::Failure] *)
Inductive data_mistake (d : bytes) : Z -> parse_error -> Prop :=
| dm_first size first r : d = le 4 size ++ le 4 first ++ r -> u32 size -> u32 first -> 256 <= first ->
    data_mistake d 0x2019 (EPalette PFirstOOB)
| dm_last size first last r : d = le 4 size ++ le 4 first ++ le 4 last ++ r -> u32 size -> u32 last ->
    0 <= first < 256 -> 256 <= last -> data_mistake d 0x2019 (EPalette PLastOOB)
| dm_order size first last r : d = le 4 size ++ le 4 first ++ le 4 last ++ r -> u32 size ->
    0 <= last < first -> first < 256 -> data_mistake d 0x2019 (EPalette PFirstGtLast)
| dm_range n ignored ts e from to r : d = le 2 n ++ ignored ++ e ++ le 2 from ++ le 2 to ++ r ->
    u16 n -> zlen ignored = 8 -> seq_l tag_l ts e -> zlen ts < n ->
    u16 from -> u16 to -> to < from -> data_mistake d 0x2018 (EInvalidFrameRange from to).

Lemma small_u32 v : 0 <= v < 256 -> u32 v.
Proof. unfold u32, uint. change (256 ^ Z.of_nat 4) with 4294967296. lia. Qed.

Lemma as_u8_cases e i : is_bytes i ->
  match parse_dword_as_u8 e i with
  | Ok (r, v) => i = le 4 v ++ r /\ 0 <= v < 256
  | Err x => soft i x \/ x = NFailure e /\ exists v r, i = le 4 v ++ r /\ u32 v /\ 256 <= v
  | Panic _ => True
  end.
Proof.
  intro Hi. unfold parse_dword_as_u8. destruct (dword i) as [[r v]|x|q] eqn:E; cbn [bind].
  - apply dword_sound in E as (b & -> & Hv & ->); [|exact Hi]. pose proof (u32_lt _ Hv).
    destruct (Z.ltb_spec v 256); [split; [reflexivity|lia]|]. right. split; [reflexivity|]. eauto.
  - left. pose proof (calm_dword i) as H. now rewrite E in H.
  - exact I.
Qed.

Lemma palette_err c d e : cfg_ok c -> is_bytes d -> parse_palette_chunk c d = Err e ->
  soft d e \/ exists x, e = NFailure x /\ data_mistake d 0x2019 x.
Proof.
  intros Hc Hd H. unfold parse_palette_chunk in H.
  pose proof (calm_usize c d Hc Hd) as Hu.
  destruct (parse_dword_as_usize c d) as [[d1 size]|x|q] eqn:E; cbn [bind] in H; [|left; injection H as <-; exact Hu|discriminate].
  clear Hu. apply parse_dword_as_usize_sound in E as (b & -> & Hs & ->); [|exact Hd].
  apply is_bytes_app_r in Hd.
  pose proof (as_u8_cases (EPalette PFirstOOB) d1 Hd) as Hu.
  destruct (parse_dword_as_u8 _ d1) as [[d2 first]|x|q] eqn:E; cbn [bind] in H; [| |discriminate].
  2:{ injection H as <-. destruct Hu as [Hu|(-> & v & r & -> & Hv & Hb)]; [left; now apply soft_app|].
      right. eexists. split; [reflexivity|]. eapply dm_first; eauto. }
  destruct Hu as [-> Hf]. apply is_bytes_app_r in Hd.
  clear E. pose proof (as_u8_cases (EPalette PLastOOB) d2 Hd) as Hu.
  destruct (parse_dword_as_u8 _ d2) as [[d3 last]|x|q] eqn:E; cbn [bind] in H; [| |discriminate].
  2:{ injection H as <-. destruct Hu as [Hu|(-> & v & r & -> & Hv & Hb)]; [left; now do 2 apply soft_app|].
      right. eexists. split; [reflexivity|]. eapply dm_last; eauto. }
  destruct Hu as [-> Hl]. apply is_bytes_app_r in Hd. clear E.
  destruct (Z.ltb_spec last first).
  - injection H as <-. right. eexists. split; [reflexivity|].
    eapply dm_order; [reflexivity|exact Hs|lia|lia].
  - left. do 3 apply soft_app.
    assert (G : calm d3 (let* (input, _) := take 8 d3 in
      let* (input, entries) := count parse_palette_entry size input in
      Ok (input, {| pc_first := first; pc_last := last; pc_entries := entries |}))) by calm_steps.
    rewrite H in G. exact G.
Qed.

Lemma tag_err d e : is_bytes d -> parse_tag d = Err e ->
  soft d e \/ exists a b r, e = NFailure (EInvalidFrameRange a b) /\ d = le 2 a ++ le 2 b ++ r /\
    u16 a /\ u16 b /\ b < a.
Proof.
  intros Hd H. unfold parse_tag in H.
  pose proof (calm_word d) as Hu.
  destruct (word d) as [[d1 from]|x|q] eqn:E; cbn [bind] in H; [|left; injection H as <-; exact Hu|discriminate].
  clear Hu. apply word_sound in E as (b & -> & Hs & ->); [|exact Hd]. apply is_bytes_app_r in Hd.
  pose proof (calm_word d1) as Hu.
  destruct (word d1) as [[d2 to]|x|q] eqn:E; cbn [bind] in H;
    [|left; apply soft_app; injection H as <-; exact Hu|discriminate].
  clear Hu. apply word_sound in E as (b & -> & Hs2 & ->); [|exact Hd]. apply is_bytes_app_r in Hd.
  destruct (Z.ltb_spec to from).
  - injection H as <-. right. exists from, to, d2. auto 6.
  - left. do 2 apply soft_app.
    match type of H with ?m = _ => assert (G : calm d2 m) by calm_steps end.
    rewrite H in G. exact G.
Qed.

Lemma count_err {A} (p : parser A) (L : A -> bytes -> Prop) n i e :
  (forall i r a, p i = Ok (r, a) -> is_bytes i -> exists e, i = e ++ r /\ L a e) -> is_bytes i ->
  count_nat p n i = Err e -> exists l e1 r, i = e1 ++ r /\ seq_l L l e1 /\ (length l < n)%nat /\ p r = Err e.
Proof.
  intro Hp. revert i; induction n as [|n IH]; intros i Hi H; cbn [count_nat] in H; [discriminate|].
  destruct (p i) as [[i1 a]|x|q] eqn:E; cbn [bind] in H; [| |discriminate].
  - apply Hp in E as (e0 & -> & Ha); [|exact Hi]. apply is_bytes_app_r in Hi.
    destruct (count_nat p n i1) as [[i2 l]|x|q] eqn:E; cbn [bind] in H; try discriminate.
    injection H as ->. destruct (IH _ Hi E) as (l & e1 & r & -> & H1 & H2 & H3).
    exists (a :: l), (e0 ++ e1), r. rewrite <- app_assoc. split; [reflexivity|].
    split; [now apply seq_l_cons|]. split; [cbn; lia|exact H3].
  - injection H as ->. exists [], [], i. split; [reflexivity|]. split; [apply seq_l_nil|].
    split; [cbn; lia|exact E].
Qed.
Lemma count_err_app {A} (p : parser A) (L : A -> bytes -> Prop) l e1 r n e :
  (forall e r a, is_bytes e -> L a e -> p (e ++ r) = Ok (r, a)) -> is_bytes e1 ->
  seq_l L l e1 -> (length l < n)%nat -> p r = Err e -> count_nat p n (e1 ++ r) = Err e.
Proof.
  intros Hp. revert e1 n; induction l as [|x l IH]; intros e1 n Hb H Hn Hr;
    (destruct n as [|n]; [cbn in Hn; lia|]); cbn [count_nat].
  - apply seq_l_nil_inv in H as ->. cbn [app]. now rewrite Hr.
  - apply seq_l_cons_inv in H as (a & b & -> & H1 & H2). apply is_bytes_app in Hb as [Hb1 Hb2].
    rewrite <- app_assoc, (Hp _ _ _ Hb1 H1). cbn [bind]. cbn in Hn.
    rewrite (IH b n Hb2 H2) by (lia || exact Hr). reflexivity.
Qed.

Lemma tags_err d e : is_bytes d -> parse_tags_chunk d = Err e ->
  soft d e \/ exists x, e = NFailure x /\ data_mistake d 0x2018 x.
Proof.
  intros Hd H. unfold parse_tags_chunk in H.
  pose proof (calm_word d) as Hu.
  destruct (word d) as [[d1 n]|x|q] eqn:E; cbn [bind] in H; [|left; injection H as <-; exact Hu|discriminate].
  clear Hu. apply word_sound in E as (b & -> & Hn & ->); [|exact Hd]. apply is_bytes_app_r in Hd.
  pose proof (calm_take 8 d1) as Hu.
  destruct (take 8 d1) as [[d2 ig]|x|q] eqn:E; cbn [bind] in H;
    [|left; apply soft_app; injection H as <-; exact Hu|discriminate].
  clear Hu. apply take_inv in E as [-> Hl]; [|lia]. apply is_bytes_app_r in Hd.
  destruct (count parse_tag n d2) as [[d3 ts]|x|q] eqn:E; cbn [bind] in H; try discriminate.
  injection H as ->. unfold count in E.
  apply (count_err _ tag_l) in E as (l & e1 & r & -> & H1 & H2 & H3);
    [|intros i r a Ha Hi; eapply parse_tag_sound; eassumption|exact Hd].
  apply is_bytes_app_r in Hd.
  apply tag_err in H3 as [H3|(a & b & r' & -> & -> & Ha & Hb & Hlt)]; [|  |exact Hd].
  - left. do 3 apply soft_app. exact H3.
  - right. eexists. split; [reflexivity|]. eapply dm_range; [reflexivity|exact Hn|exact Hl|exact H1| |exact Ha|exact Hb|exact Hlt].
    apply u_nonneg in Hn. unfold zlen. lia.
Qed.

Lemma as_u8_big e v r : u32 v -> 256 <= v -> parse_dword_as_u8 e (le 4 v ++ r) = Err (NFailure e).
Proof. intros H1 H2. unfold parse_dword_as_u8. papp. now replace (v <? 256) with false by lia. Qed.

Lemma data_mistake_err c d code x : cfg_ok c -> is_bytes d -> data_mistake d code x ->
  forall t, chunk_type_from_repr code = Some t -> parse_chunk_data c (inl t) d = Err (NFailure x).
Proof.
  intros Hc Hd H t Ht.
  destruct H as [size first r -> H1 H2 H3|size first last r -> H1 H2 H3 H4|size first last r -> H1 H2 H3
                |n ig ts e a b r -> H1 H2 H3 H4 H5 H6 H7];
    injection Ht as <-; cbn [parse_chunk_data].
  - unfold parse_palette_chunk. rewrite parse_dword_as_usize_app by assumption. cbn [bind].
    now rewrite as_u8_big.
  - unfold parse_palette_chunk. rewrite parse_dword_as_usize_app by assumption. cbn [bind].
    rewrite parse_dword_as_u8_app by lia. cbn [bind]. now rewrite as_u8_big.
  - unfold parse_palette_chunk. rewrite parse_dword_as_usize_app by assumption. cbn [bind].
    rewrite parse_dword_as_u8_app by lia. cbn [bind]. rewrite parse_dword_as_u8_app by lia. cbn [bind].
    now replace (last <? first) with true by lia.
  - unfold parse_tags_chunk. papp. unfold count.
    do 2 apply is_bytes_app_r in Hd. apply is_bytes_app_l in Hd.
    erewrite (count_err_app parse_tag tag_l); [reflexivity| |exact Hd|exact H3| |].
    + intros. now apply parse_tag_accepts.
    + apply u_nonneg in H1. unfold zlen in H4. lia.
    + unfold parse_tag. papp. now replace (b <? a) with true by lia.
Qed.

Lemma just_err {A} (f : A -> chunk) r e : just f r = Err e -> r = Err e.
Proof. destruct r as [[r a]|x|q]; cbn; congruence. Qed.
Lemma calm_err {A} (p : bytes -> pres A) i e : calm i (p i) -> p i = Err e -> soft i e.
Proof. intros H E. now rewrite E in H. Qed.

Lemma chunk_data_err c code d e : cfg_ok c -> is_bytes d ->
  parse_chunk_data c (match chunk_type_from_repr code with Some t => inl t | None => inr code end) d = Err e ->
  soft d e \/ exists x, e = NFailure x /\ data_mistake d code x.
Proof.
  intros Hc Hd. unfold chunk_type_from_repr.
  repeat (match goal with |- context [if ?z =? ?k then _ else _] =>
    destruct (Z.eqb_spec z k) as [->|?]; [|] end;
  [cbn [parse_chunk_data]; intro H;
   first [ discriminate H
         | apply just_err in H;
           first
           [ apply palette_err in H; [exact H|exact Hc|exact Hd]
           | apply tags_err in H; [exact H|exact Hd]
           | left; first
             [ apply calm_err in H; [exact H|apply calm_old_palette, Hd]
             | apply calm_err in H; [exact H|apply calm_layer, Hd]
             | apply calm_err in H; [exact H|apply calm_cel, Hd]
             | apply calm_err in H; [exact H|apply calm_cel_extra, Hd]
             | apply calm_err in H; [exact H|apply calm_color_profile, Hd]
             | apply calm_err in H; [exact H|apply calm_external_files; [exact Hc|exact Hd]]
             | apply calm_err in H; [exact H|apply calm_mask, Hd]
             | apply calm_err in H; [exact H|apply calm_user_data; [exact Hc|exact Hd]]
             | apply calm_err in H; [exact H|apply calm_slice; [exact Hc|exact Hd]]
             | apply calm_err in H; [exact H|apply calm_tileset, Hd] ] ] ] |]).
  cbn [parse_chunk_data]. discriminate.
Qed.

(** ** Chunks, frames *)
Lemma dword_size_cases i : is_bytes i ->
  match dword_size EInvalidFrameSize i with
  | Ok (r, v) => i = le 4 v ++ r /\ 4 <= v /\ u32 v
  | Err e => soft i e \/ exists n r, e = NFailure (EInvalidFrameSize n) /\ i = le 4 n ++ r /\ 0 <= n < 4
  | Panic _ => True
  end.
Proof.
  intro Hi. unfold dword_size. destruct (dword i) as [[r v]|x|q] eqn:E; cbn [bind].
  - apply dword_sound in E as (b & -> & Hv & ->); [|exact Hi]. pose proof (u32_lt _ Hv).
    destruct (Z.leb_spec 4 v); [auto|]. right. exists v, r. split; [reflexivity|]. split; [reflexivity|lia].
  - left. pose proof (calm_dword i) as H. now rewrite E in H.
  - exact I.
Qed.
Lemma dword_size_small n r : 0 <= n < 4 ->
  dword_size EInvalidFrameSize (le 4 n ++ r) = Err (NFailure (EInvalidFrameSize n)).
Proof.
  intro H. unfold dword_size. rewrite dword_app by (apply small_u32; lia). cbn [bind].
  now replace (4 <=? n) with false by lia.
Qed.

(** The common framing, the error cases. *)
Lemma framed_err c {A} (k : bytes -> bytes -> out nom_err A) i e : is_bytes i ->
  (let* (input, size) := dword_size EInvalidFrameSize i in
   let* n := u32c c (size - 4) in
   let* (rest, input) := take n input in k rest input) = Err e ->
  soft i e \/
  (exists n r, e = NFailure (EInvalidFrameSize n) /\ i = le 4 n ++ r /\ 0 <= n < 4) \/
  exists d rest, i = le 4 (zlen d + 4) ++ d ++ rest /\ u32 (zlen d + 4) /\ k rest d = Err e.
Proof.
  intros Hi H. pose proof (dword_size_cases i Hi) as Hd.
  destruct (dword_size _ i) as [[i1 size]|x|q]; cbn [bind] in H; [| |discriminate].
  2:{ injection H as ->. destruct Hd; auto. }
  destruct Hd as (-> & H4 & Hs). pose proof (u32_lt _ Hs). rewrite u32c_ok in H by lia. cbn [bind] in H.
  pose proof (calm_take (size - 4) i1) as Ht.
  destruct (take _ i1) as [[rest d]|x|q] eqn:Et; cbn [bind] in H; [| |discriminate].
  - apply take_inv in Et as [-> Hl]; [|lia]. right. right. exists d, rest.
    replace (zlen d + 4) with size by lia. auto.
  - injection H as ->. left. now apply soft_app.
Qed.

Inductive chunk_mistake (i : bytes) : parse_error -> Prop :=
| cm_size n r : i = le 4 n ++ r -> 0 <= n < 4 -> chunk_mistake i (EInvalidFrameSize n)
| cm_data code d rest x : i = encode_chunk code d ++ rest -> u16 code -> u32 (zlen d + 6) ->
    data_mistake d code x -> chunk_mistake i x.

Lemma encode_chunk_alt code d : encode_chunk code d = le 4 (zlen (le 2 code ++ d) + 4) ++ le 2 code ++ d.
Proof. unfold encode_chunk. rewrite zlen_app, zlen_le. do 2 f_equal. lia. Qed.

Lemma chunk_err c i e : cfg_ok c -> is_bytes i -> parse_chunk c i = Err e ->
  soft i e \/ exists x, e = NFailure x /\ chunk_mistake i x.
Proof.
  intros Hc Hi H. unfold parse_chunk in H.
  apply (framed_err c) in H as [H|[(n & r & -> & -> & Hn)|(d & rest & -> & Hs & H)]]; [| | |exact Hi].
  - now left.
  - right. eexists. split; [reflexivity|]. eapply cm_size; [reflexivity|exact Hn].
  - apply is_bytes_app_r, is_bytes_app_l in Hi.
    assert (G : soft d e \/ exists x code d', e = NFailure x /\ d = le 2 code ++ d' /\ u16 code /\ data_mistake d' code x).
    { unfold parse_chunk_type in H.
      pose proof (calm_word d) as Hw.
      destruct (word d) as [[d' code]|x|q] eqn:E; [| |].
      - destruct (word_sound _ _ _ Hi E) as (b & -> & Hcode & ->).
        apply is_bytes_app_r in Hi. erewrite pmap_app in H by exact E. cbn [bind] in H.
        match type of H with bind ?m _ = _ => destruct m as [y|x|q] eqn:Eq; cbn [bind] in H; try discriminate end.
        injection H as ->. apply chunk_data_err in Eq as [Eq|(x & -> & Eq)]; [| |exact Hc|exact Hi].
        + left. now apply soft_app.
        + right. exists x, code, d'. auto.
      - unfold pmap in H. rewrite E in H. cbn [bind] in H. injection H as ->. now left.
      - unfold pmap in H. rewrite E in H. discriminate. }
    destruct G as [(x & -> & G)|(x & code & d' & -> & -> & Hcode & G)].
    + left. eexists. split; [reflexivity|]. eapply explained_infix, G. intros s Hin.
      apply infix_app, infix_app_l, Hin.
    + right. exists x. split; [reflexivity|]. eapply cm_data; [|exact Hcode| |exact G].
      * rewrite encode_chunk_alt, <- app_assoc. reflexivity.
      * rewrite zlen_app, zlen_le in Hs. now replace (zlen d' + 6) with (Z.of_nat 2 + zlen d' + 4) by lia.
Qed.
Lemma chunk_mistake_err c i x : cfg_ok c -> is_bytes i -> chunk_mistake i x -> parse_chunk c i = Err (NFailure x).
Proof.
  intros Hc Hi [n r -> Hn|code d rest y -> Hcode Hs Hm].
  - unfold parse_chunk. now rewrite dword_size_small.
  - unfold parse_chunk. rewrite encode_chunk_alt in *. rewrite <- app_assoc.
    rewrite framed_app by (rewrite zlen_app, zlen_le; now replace (Z.of_nat 2 + zlen d + 4) with (zlen d + 6) by lia).
    apply is_bytes_app_l in Hi. do 2 apply is_bytes_app_r in Hi.
    unfold parse_chunk_type. erewrite pmap_app by exact (word_app _ _ Hcode). cbn [bind].
    destruct (chunk_type_from_repr code) as [t|] eqn:Et.
    + now rewrite (data_mistake_err c d code y Hc Hi Hm t Et).
    + destruct Hm; discriminate.
Qed.

Inductive frame_mistake (c : cfg) (i : bytes) : parse_error -> Prop :=
| fm_size n r : i = le 4 n ++ r -> 0 <= n < 4 -> frame_mistake c i (EInvalidFrameSize n)
| fm_chunk cs size old duration ignored new e r after x :
    i = le 4 size ++ le 2 0xF1FA ++ le 2 old ++ le 2 duration ++ ignored ++ le 4 new ++ e ++ r ++ after ->
    u32 size -> u16 old -> u16 duration -> zlen ignored = 2 -> u32 new -> size = zlen e + zlen r + 16 ->
    seq_l (chunk_l (kept_error c)) cs e -> zlen cs < (if new =? 0 then old else new) ->
    chunk_mistake r x -> frame_mistake c i x.

Lemma frame_err c i e : cfg_ok c -> is_bytes i -> addressable c i -> parse_rawframe c i = Err e ->
  (exists x, e = NError x /\ frame_explained i x) \/ exists x, e = NFailure x /\ frame_mistake c i x.
Proof.
  intros Hc Hi Ha H. unfold parse_rawframe in H.
  apply (framed_err c) in H as [H|[(n & r & -> & -> & Hn)|(d & rest & -> & Hs & H)]]; [| | |exact Hi].
  - left. destruct H as (x & -> & H). exists x. split; [reflexivity|now left].
  - right. eexists. split; [reflexivity|]. eapply fm_size; [reflexivity|exact Hn].
  - apply is_bytes_app_r, is_bytes_app_l in Hi. apply addressable_app_r, addressable_app_l in Ha.
    assert (S : soft d e -> exists x, e = NError x /\ frame_explained (le 4 (zlen d + 4) ++ d ++ rest) x).
    { intros (x & -> & Hx). exists x. split; [reflexivity|]. left. eapply explained_infix, Hx. intros s Hin.
      apply infix_app, infix_app_l, Hin. }
    destruct (tag FRAME_MAGIC_NUMBER d) as [[d1 m]|x|q] eqn:Et; cbn [bind] in H; [| |discriminate].
    2:{ injection H as ->. unfold tag in Et.
        destruct (list_eqb _ _) eqn:El in Et; [discriminate|]. injection Et as <-.
        left. eexists. split; [reflexivity|]. right. exists (zlen d + 4), d, rest.
        repeat split; try reflexivity; try apply Hs.
        intro Hm. change (le 2 61946) with FRAME_MAGIC_NUMBER in Hm.
        assert (list_eqb (firstn (length FRAME_MAGIC_NUMBER) d) FRAME_MAGIC_NUMBER = true)
          by (apply list_eqb_eq; exact Hm). congruence. }
    apply tag_inv in Et as [-> ->]. apply is_bytes_app_r in Hi. apply addressable_app_r in Ha.
    assert (S' : soft d1 e -> exists x, e = NError x /\ frame_explained (le 4 (zlen (FRAME_MAGIC_NUMBER ++ d1) + 4) ++ (FRAME_MAGIC_NUMBER ++ d1) ++ rest) x)
      by (intro; now apply S, soft_app).
    clear S.
    pose proof (calm_word d1) as Hu.
    destruct (word d1) as [[d2 old]|x|q] eqn:E; cbn [bind] in H; [|injection H as <-; left; apply S', Hu|discriminate].
    clear Hu. apply word_sound in E as (b & -> & Hold & ->); [|exact Hi].
    apply is_bytes_app_r in Hi. apply addressable_app_r in Ha.
    pose proof (calm_word d2) as Hu.
    destruct (word d2) as [[d3 dur]|x|q] eqn:E; cbn [bind] in H;
      [|injection H as <-; left; apply S', soft_app, Hu|discriminate].
    clear Hu. apply word_sound in E as (b & -> & Hdur & ->); [|exact Hi].
    apply is_bytes_app_r in Hi. apply addressable_app_r in Ha.
    pose proof (calm_take 2 d3) as Hu.
    destruct (take 2 d3) as [[d4 ig]|x|q] eqn:E; cbn [bind] in H;
      [|injection H as <-; left; apply S', soft_app, soft_app, Hu|discriminate].
    clear Hu. apply take_inv in E as [-> Hig]; [|lia].
    apply is_bytes_app_r in Hi. apply addressable_app_r in Ha.
    pose proof (calm_usize c d4 Hc Hi) as Hu.
    destruct (parse_dword_as_usize c d4) as [[d5 new]|x|q] eqn:E; cbn [bind] in H;
      [|injection H as <-; left; apply S', soft_app, soft_app, soft_app, Hu|discriminate].
    clear Hu. apply parse_dword_as_usize_sound in E as (b & -> & Hnew & ->); [|exact Hi].
    apply is_bytes_app_r in Hi. apply addressable_app_r in Ha.
    match type of H with bind ?m _ = _ => destruct m as [[d6 l]|x|q] eqn:Eq; cbn [bind] in H; try discriminate end.
    injection H as ->. unfold parse_chunks, count in Eq.
    assert (Hpos : 0 <= (if new =? 0 then old else new)) by (destruct (new =? 0); eapply u_nonneg; eassumption).
    assert (G : exists l e1 r, d5 = e1 ++ r /\ seq_l (chunk_l (kept_error c)) l e1 /\
      (length l < Z.to_nat (if (new =? 0)%Z then old else new))%nat /\ parse_chunk c r = Err e).
    { revert Eq. generalize (Z.to_nat (if new =? 0 then old else new)) as n. clear -Hc Hi Ha. intro n.
      revert d5 Hi Ha; induction n as [|n IH]; intros i Hi Ha H; cbn [count_nat] in H; [discriminate|].
      destruct (parse_chunk c i) as [[i1 a]|x|q] eqn:E; cbn [bind] in H; [| |discriminate].
      - apply parse_chunk_sound in E as (e0 & -> & Hl); [|exact Hc|exact Hi|exact Ha].
        apply is_bytes_app_r in Hi. apply addressable_app_r in Ha.
        destruct (count_nat _ n i1) as [[i2 l]|x|q] eqn:E; cbn [bind] in H; try discriminate.
        injection H as ->. destruct (IH _ Hi Ha E) as (l & e1 & r & -> & H1 & H2 & H3).
        exists (a :: l), (e0 ++ e1), r. rewrite <- app_assoc. split; [reflexivity|].
        split; [now apply seq_l_cons|]. split; [cbn; lia|exact H3].
      - injection H as ->. exists [], [], i. split; [reflexivity|]. split; [apply seq_l_nil|].
        split; [cbn; lia|exact E]. }
    destruct G as (l & e1 & r & -> & H1 & H2 & H3). apply is_bytes_app_r in Hi.
    apply chunk_err in H3 as [H3|(x & -> & H3)]; [| |exact Hc|exact Hi].
    + left. apply S'. do 5 apply soft_app. exact H3.
    + right. exists x. split; [reflexivity|].
      eapply (fm_chunk _ _ l _ old dur ig new e1 r rest);
        [|exact Hs|exact Hold|exact Hdur|exact Hig|exact Hnew| |exact H1| |exact H3].
      * rewrite <- !app_assoc. reflexivity.
      * rewrite !zlen_app, !zlen_le, Hig. change (zlen FRAME_MAGIC_NUMBER) with 2. lia.
      * unfold zlen. lia.
Qed.
Lemma frame_mistake_err c i x : cfg_ok c -> is_bytes i -> frame_mistake c i x ->
  parse_rawframe c i = Err (NFailure x).
Proof.
  intros Hc Hi [n r -> Hn|cs size old dur ig new e r after y -> H1 H2 H3 H4 H5 H6 H7 H8 H9].
  - unfold parse_rawframe. now rewrite dword_size_small.
  - set (d := le 2 0xF1FA ++ le 2 old ++ le 2 dur ++ ig ++ le 4 new ++ e ++ r).
    replace (le 4 size ++ le 2 61946 ++ le 2 old ++ le 2 dur ++ ig ++ le 4 new ++ e ++ r ++ after)
      with (le 4 (zlen d + 4) ++ d ++ after) in *.
    2:{ subst d. rewrite !zlen_app, !zlen_le, H4, H6. rewrite <- !app_assoc. do 2 f_equal. lia. }
    assert (Hd : zlen d + 4 = size) by (subst d; rewrite !zlen_app, !zlen_le; lia).
    unfold parse_rawframe. rewrite framed_app by now rewrite Hd.
    apply is_bytes_app_r, is_bytes_app_l in Hi. subst d. do 5 apply is_bytes_app_r in Hi.
    change (le 2 61946) with FRAME_MAGIC_NUMBER. papp.
    rewrite parse_dword_as_usize_app by assumption. cbn [bind]. unfold parse_chunks, count.
    apply is_bytes_app in Hi as [Hi1 Hi2].
    erewrite (count_err_app (parse_chunk c) (chunk_l (kept_error c))); [reflexivity| |exact Hi1|exact H7| |].
    + intros. now apply parse_chunk_accepts.
    + unfold zlen in H8. lia.
    + now apply chunk_mistake_err.
Qed.

(** ** Files *)
Lemma skipn_skipn {A} n k (l : list A) : skipn n (skipn k l) = skipn (n + k) l.
Proof.
  revert l; induction k as [|k IH]; intro l; [now rewrite Nat.add_0_r|].
  rewrite Nat.add_succ_r. destruct l; [now rewrite !skipn_nil|]. cbn [skipn]. apply IH.
Qed.
Lemma le_uint_at n k b : (n + k <= length b)%nat ->
  le_uint n (skipn k b) = Ok (skipn (n + k) b, le_value (firstn n (skipn k b))).
Proof.
  intro H. unfold le_uint. rewrite skipn_length.
  replace (length b - k <? n)%nat with false by lia. now rewrite skipn_skipn.
Qed.
Lemma take_at m n k b : m = Z.of_nat n -> (n + k <= length b)%nat ->
  take m (skipn k b) = Ok (skipn (n + k) b, firstn n (skipn k b)).
Proof.
  intros -> H. unfold take, zlen. rewrite skipn_length.
  replace (Z.of_nat (length b - k) <? Z.of_nat n) with false by lia. now rewrite Nat2Z.id, skipn_skipn.
Qed.
Lemma tag_at t k b : tag t (skipn k b) =
  if list_eqb (firstn (length t) (skipn k b)) t then Ok (skipn (length t + k) b, t)
  else Err (NError (ENom (skipn k b) KTag)).
Proof. unfold tag. now rewrite skipn_skipn. Qed.
Lemma field_part i k n m : (n + k <= m)%nat -> firstn n (skipn k (firstn m i)) = field i k n.
Proof.
  intro H. unfold field. rewrite skipn_firstn_comm, firstn_firstn. f_equal. lia.
Qed.
Lemma list_eqb_neq a b : list_eqb a b = false <-> a <> b.
Proof.
  rewrite <- list_eqb_eq. destruct (list_eqb a b); split; congruence.
Qed.

Lemma header_eq i : 128 <= zlen i -> exists h,
  parse_header i =
  if list_eqb (field i 4 2) HEADER_MAGIC_NUMBER then
    if list_eqb (field i 20 4) [0; 0; 0; 0] then
      if list_eqb (field i 24 4) [0; 0; 0; 0] then Ok (skipn 128 i, h)
      else Err (NError (ENom (field i 24 104) KTag))
    else Err (NError (ENom (field i 20 108) KTag))
  else Err (NError (ENom (field i 4 124) KTag)).
Proof.
  intro Hl. unfold zlen in Hl. eexists. unfold parse_header.
  replace (take 128 i) with (take 128 (skipn 0 i)) by reflexivity.
  rewrite (take_at 128 128 0 i) by lia. change (skipn 0 i) with i. cbn [bind].
  assert (Hb : length (firstn 128 i) = 128%nat) by (rewrite firstn_length; lia).
  set (b := firstn 128 i) in *.
  assert (F : forall k n, (n + k <= 128)%nat -> firstn n (skipn k b) = field i k n)
    by (intros; now apply field_part).
  assert (G : forall k n, (n + k = 128)%nat -> skipn k b = field i k n).
  { intros k n Hk. rewrite <- (F k n) by lia. symmetry. apply firstn_all2. rewrite skipn_length. lia. }
  replace (dword b) with (dword (skipn 0 b)) by reflexivity.
  unfold parse_color_depth, short, le_int, dword, word, byte.
  Ltac num Hb := rewrite le_uint_at by (rewrite Hb; cbn; lia); cbn [bind Nat.add].
  Ltac skp m Hb := rewrite (take_at _ m) by (rewrite ?Hb; cbn; lia); cbn [bind Nat.add].
  Ltac tg F G o n :=
    rewrite tag_at;
    match goal with |- context [firstn ?m (skipn o _)] => change m with n end;
    rewrite (F o n) by (cbn; lia);
    match goal with |- context [list_eqb (field ?i o n) ?t] => destruct (list_eqb (field i o n) t) end;
    cbn [bind length HEADER_MAGIC_NUMBER Nat.add];
    [|rewrite (G o (128 - o)%nat) by (cbn; lia); reflexivity].
  num Hb. tg F G 4%nat 2%nat. do 6 num Hb. tg F G 20%nat 4%nat. tg F G 24%nat 4%nat.
  num Hb. skp 3%nat Hb. do 7 num Hb. skp 84%nat Hb.
  rewrite skipn_length, Hb. cbn [Nat.sub Nat.eqb negb]. reflexivity.
Qed.
Lemma header_err i e : parse_header i = Err e <-> exists x, e = NError x /\ header_error i x.
Proof.
  destruct (Z.ltb_spec (zlen i) 128) as [Hl|Hl].
  - unfold parse_header, take. replace (zlen i <? 128) with true by lia. cbn [bind]. split.
    + intros [= <-]. eexists. split; [reflexivity|]. left. auto.
    + intros (x & -> & [[_ ->]|[H|[H|H]]]); [reflexivity|lia..].
  - destruct (header_eq i Hl) as (h & ->). unfold header_error. change (le 2 42464) with HEADER_MAGIC_NUMBER.
    destruct (list_eqb (field i 4 2) _) eqn:E1; [apply list_eqb_eq in E1|apply list_eqb_neq in E1].
    2:{ split; [intros [= <-]; eexists; split; [reflexivity|]; right; left; auto|].
        intros (x & -> & [H|[(_ & _ & ->)|[H|H]]]); [lia|reflexivity|tauto|tauto]. }
    destruct (list_eqb (field i 20 4) _) eqn:E2; [apply list_eqb_eq in E2|apply list_eqb_neq in E2].
    2:{ split; [intros [= <-]; eexists; split; [reflexivity|]; right; right; left; auto|].
        intros (x & -> & [H|[H|[(_ & _ & _ & ->)|H]]]); [lia|tauto|reflexivity|tauto]. }
    destruct (list_eqb (field i 24 4) _) eqn:E3; [apply list_eqb_eq in E3|apply list_eqb_neq in E3].
    2:{ split; [intros [= <-]; eexists; split; [reflexivity|]; right; right; right; auto 6|].
        intros (x & -> & [H|[H|[H|(_ & _ & _ & _ & ->)]]]); [lia|tauto|tauto|reflexivity]. }
    split; [discriminate|]. intros (x & -> & [H|[H|[H|H]]]); [lia|tauto..].
Qed.

(** The loop over frames. *)
Lemma many_loop_err c {A} (p : parser A) L : sound_a c p L -> forall fuel i acc e,
  is_bytes i -> addressable c i -> many_loop p fuel acc i = Err (NFailure e) ->
  exists l e1 r, i = e1 ++ r /\ seq_l L l e1 /\ p r = Err (NFailure e).
Proof.
  intros Hp. induction fuel as [|fuel IH]; intros i acc e Hi Ha H; cbn [many_loop] in H; [discriminate|].
  destruct (p i) as [[i' a]|[x|x]|q] eqn:E; try discriminate.
  - destruct (_ =? _)%nat; [discriminate|].
    apply Hp in E as (e1 & -> & H1); [|assumption..]. apply is_bytes_app_r in Hi. apply addressable_app_r in Ha.
    apply IH in H as (l & e2 & r & -> & H2 & H3); [|assumption..].
    exists (a :: l), (e1 ++ e2), r. rewrite <- app_assoc. split; [reflexivity|]. split; [now apply seq_l_cons|exact H3].
  - injection H as ->. exists [], [], i. split; [reflexivity|]. split; [apply seq_l_nil|exact E].
Qed.
Lemma many_loop_stops c {A} (p : parser A) L : sound_a c p L -> forall fuel i acc l r,
  is_bytes i -> addressable c i -> many_loop p fuel acc i = Ok (r, l) ->
  exists l' e1, i = e1 ++ r /\ seq_l L l' e1 /\ exists x, p r = Err (NError x).
Proof.
  intros Hp. induction fuel as [|fuel IH]; intros i acc l r Hi Ha H; cbn [many_loop] in H; [discriminate|].
  destruct (p i) as [[i' a]|[x|x]|q] eqn:E; try discriminate.
  - destruct (_ =? _)%nat; [discriminate|].
    apply Hp in E as (e1 & -> & H1); [|assumption..]. apply is_bytes_app_r in Hi. apply addressable_app_r in Ha.
    apply IH in H as (l' & e2 & -> & H2 & H3); [|assumption..].
    exists (a :: l'), (e1 ++ e2). rewrite <- app_assoc. split; [reflexivity|]. split; [now apply seq_l_cons|exact H3].
  - injection H as <- <-. exists [], []. split; [reflexivity|]. split; [apply seq_l_nil|eauto].
Qed.
(** Frames consume input, so the loop never reports [Many1]. *)
Lemma many_loop_frames c fuel i acc x : cfg_ok c -> is_bytes i -> addressable c i ->
  many_loop (parse_rawframe c) fuel acc i <> Err (NError x).
Proof.
  intro Hc. revert i acc; induction fuel as [|fuel IH]; intros i acc Hi Ha H; cbn [many_loop] in H; [discriminate|].
  destruct (parse_rawframe c i) as [[i' a]|[y|y]|q] eqn:E; try discriminate.
  apply parse_rawframe_sound in E as (e1 & -> & H1); [|assumption..].
  apply frame_l_zlen in H1. apply is_bytes_app_r in Hi. apply addressable_app_r in Ha.
  rewrite app_length in H. unfold zlen in H1.
  replace (length i' =? length e1 + length i')%nat with false in H by lia.
  now apply IH in H.
Qed.
Lemma many_loop_err_app {A} (p : parser A) (L : A -> bytes -> Prop) :
  (forall e r a, is_bytes e -> L a e -> p (e ++ r) = Ok (r, a)) ->
  (forall a e, L a e -> e <> []) ->
  forall l e r fuel acc x, is_bytes e -> seq_l L l e -> (length e < fuel)%nat -> p r = Err (NFailure x) ->
  many_loop p fuel acc (e ++ r) = Err (NFailure x).
Proof.
  intros Hp Hne. induction l as [|y l IH]; intros e r fuel acc x Hb H Hf Hr;
    (destruct fuel as [|fuel]; [lia|]); cbn [many_loop].
  - apply seq_l_nil_inv in H as ->. cbn [app]. now rewrite Hr.
  - apply seq_l_cons_inv in H as (e1 & e2 & -> & H1 & H2). apply is_bytes_app in Hb as [Hb1 Hb2].
    rewrite <- app_assoc, (Hp _ _ _ Hb1 H1). rewrite !app_length in *.
    assert (length e1 <> 0)%nat by (intro Hz; apply (Hne _ _ H1); now destruct e1).
    replace (length e2 + length r =? length e1 + (length e2 + length r))%nat with false by lia.
    apply (IH e2); (assumption || lia).
Qed.

Lemma frame_mistake_at c i fs r x : at_frame c i fs r -> frame_mistake c r x -> mistake c i x.
Proof.
  intros H [n r' -> Hn|cs size old dur ig new e r' after y -> H1 H2 H3 H4 H5 H6 H7 H8 H9].
  - eapply wrong_frame_size; eassumption.
  - assert (Hat : at_chunk c i fs cs r') by (exists size, old, dur, ig, new, e, after; auto 10).
    destruct H9 as [n r'' -> Hn|code d rest y -> Hcode Hs Hm].
    + eapply wrong_chunk_size; eassumption.
    + assert (Hd : at_data c i fs cs code d) by (exists rest; auto).
      destruct Hm as [s f q -> K1 K2 K3|s f l q -> K1 K2 K3 K4|s f l q -> K1 K2 K3
                |n ig' ts e' a b q -> K1 K2 K3 K4 K5 K6 K7].
      * eapply wrong_first; eassumption.
      * eapply wrong_last; [exact Hd|exact K1|exact K2|exact K3|exact K4].
      * eapply wrong_order; [exact Hd|exact K1|exact K2|exact K3].
      * eapply wrong_range; [exact Hd|exact K1|exact K2|exact K3|exact K4|exact K5|exact K6|exact K7].
Qed.
Lemma mistake_frame c i x : mistake c i x -> exists fs r, at_frame c i fs r /\ frame_mistake c r x.
Proof.
  assert (D : forall x fs cs code d, at_data c i fs cs code d -> data_mistake d code x ->
    exists fs r, at_frame c i fs r /\ frame_mistake c r x).
  { clear x. intros x fs cs code d (rest & (size & old & dur & ig & new & e & after & Hf & H1 & H2 & H3 & H4 & H5 & H6 & H7 & H8) & Hcode & Hs) Hm.
    exists fs. eexists. split; [exact Hf|].
    eapply fm_chunk; [reflexivity|exact H1|exact H2|exact H3|exact H4|exact H5|exact H6|exact H7|exact H8|].
    eapply cm_data; [reflexivity|exact Hcode|exact Hs|exact Hm]. }
  intros [fs n r H Hn|fs cs n r H Hn|fs cs size first r H K1 K2 K3|fs cs size first last r H K1 K2 K3 K4
         |fs cs size first last r H K1 K2 K3|fs cs n ig ts e a b r H K1 K2 K3 K4 K5 K6 K7].
  - exists fs. eexists. split; [exact H|]. eapply fm_size; [reflexivity|exact Hn].
  - destruct H as (size & old & dur & ig & new & e & after & Hf & H1 & H2 & H3 & H4 & H5 & H6 & H7 & H8).
    exists fs. eexists. split; [exact Hf|].
    eapply fm_chunk; [reflexivity|exact H1|exact H2|exact H3|exact H4|exact H5|exact H6|exact H7|exact H8|].
    eapply cm_size; [reflexivity|exact Hn].
  - eapply D; [exact H|]. eapply dm_first; [reflexivity|exact K1|exact K2|exact K3].
  - eapply D; [exact H|]. eapply dm_last; [reflexivity|exact K1|exact K2|exact K3|exact K4].
  - eapply D; [exact H|]. eapply dm_order; [reflexivity|exact K1|exact K2|exact K3].
  - eapply D; [exact H|]. eapply dm_range; [reflexivity|exact K1|exact K2|exact K3|exact K4|exact K5|exact K6|exact K7].
Qed.

Theorem failure_iff c i x : cfg_ok c -> is_bytes i -> addressable c i ->
  parse_raw_file c i = Err (NFailure x) <-> mistake c i x.
Proof.
  intros Hc Hi Ha. unfold parse_raw_file. split.
  - intro H. destruct (parse_header i) as [[i1 h]|e|q] eqn:E; cbn [bind] in H; [| |discriminate].
    2:{ apply header_err in E as (y & -> & _). discriminate. }
    apply parse_header_sound in E as (e1 & -> & H1); [|exact Hi].
    apply is_bytes_app_r in Hi. apply addressable_app_r in Ha.
    assert (G : exists fs e2 r, i1 = e2 ++ r /\ seq_l (frame_l (kept_error c)) fs e2 /\
                parse_rawframe c r = Err (NFailure x)).
    { unfold parse_frames, complete, all_consuming, many1 in H.
      destruct (parse_rawframe c i1) as [[i2 f]|e|q] eqn:E; cbn [bind] in H; [| |discriminate].
      - destruct (many_loop _ _ _ i2) as [[i3 l]|e|q] eqn:El; cbn [bind] in H; [| |discriminate].
        + destruct i3; cbn [bind] in H; discriminate.
        + injection H as ->.
          apply parse_rawframe_sound in E as (e2 & -> & Hf); [|assumption..].
          apply is_bytes_app_r in Hi. apply addressable_app_r in Ha.
          eapply many_loop_err in El as (fs & e3 & r & -> & H2 & H3); [|apply parse_rawframe_sound, Hc|assumption..].
          exists (f :: fs), (e2 ++ e3), r. rewrite <- app_assoc. split; [reflexivity|].
          split; [now apply seq_l_cons|exact H3].
      - injection H as ->. exists [], [], i1. split; [reflexivity|]. split; [apply seq_l_nil|exact E]. }
    destruct G as (fs & e2 & r & -> & H2 & H3).
    apply is_bytes_app_r in Hi. apply addressable_app_r in Ha.
    apply frame_err in H3 as [(y & H3 & _)|(y & H3 & H4)]; [discriminate| |assumption..].
    injection H3 as <-. eapply frame_mistake_at; [|exact H4]. exists h, e1, e2.
    split; [exact H1|]. split; [exact H2|reflexivity].
  - intro H. apply mistake_frame in H as (fs & r & (h & e1 & e2 & H1 & H2 & ->) & H3).
    rewrite (parse_header_accepts _ _ _ H1). cbn [bind].
    apply is_bytes_app_r in Hi. apply is_bytes_app in Hi as [Hi1 Hi2].
    apply frame_mistake_err in H3; [|exact Hc|exact Hi2].
    unfold parse_frames, complete, all_consuming, many1.
    destruct fs as [|f fs].
    + apply seq_l_nil_inv in H2 as ->. cbn [app]. rewrite H3. reflexivity.
    + apply seq_l_cons_inv in H2 as (a & b & -> & Hf & H2). apply is_bytes_app in Hi1 as [Ha1 Ha2].
      rewrite <- app_assoc, (parse_rawframe_accepts c a (b ++ r) f) by assumption.
      erewrite (many_loop_err_app _ (frame_l (kept_error c))); [reflexivity| | |exact Ha2|exact H2| |exact H3].
      * intros. now apply parse_rawframe_accepts.
      * intros y e Hy ->. apply frame_l_zlen in Hy. cbn in Hy. lia.
      * rewrite app_length. lia.
Qed.

Lemma not_starts c r x : cfg_ok c -> is_bytes r -> parse_rawframe c r = Err x -> ~ starts_frame c r.
Proof.
  intros Hc Hr H (f & e & r' & Hf & ->). apply is_bytes_app_l in Hr.
  rewrite (parse_rawframe_accepts c e r' f) in H by assumption. discriminate.
Qed.

Theorem error_cases c i x : cfg_ok c -> is_bytes i -> addressable c i ->
  parse_raw_file c i = Err (NError x) ->
  header_error i x \/
  (exists r, at_frame c i [] r /\ ~ starts_frame c r /\ frame_explained r x) \/
  (exists fs r, at_frame c i fs r /\ fs <> [] /\ r <> [] /\ ~ starts_frame c r /\ x = ENom r KEof).
Proof.
  intros Hc Hi Ha H. unfold parse_raw_file in H.
  destruct (parse_header i) as [[i1 h]|e|q] eqn:E; cbn [bind] in H; [| |discriminate].
  2:{ injection H as ->. apply header_err in E as (y & [= <-] & E). now left. }
  right. apply parse_header_sound in E as (e1 & -> & H1); [|exact Hi].
  apply is_bytes_app_r in Hi. apply addressable_app_r in Ha.
  unfold parse_frames, complete, all_consuming, many1 in H.
  destruct (parse_rawframe c i1) as [[i2 f]|e|q] eqn:E; cbn [bind] in H; [| |discriminate].
  - destruct (many_loop _ _ _ i2) as [[i3 l]|e|q] eqn:El; cbn [bind] in H; [| |discriminate].
    + assert (Hne : i3 <> [] /\ x = ENom i3 KEof)
        by (destruct i3; cbn [bind] in H; [discriminate|]; injection H as <-; split; [discriminate|reflexivity]).
      destruct Hne as [Hne ->]. clear H.
      apply parse_rawframe_sound in E as (e2 & -> & Hf); [|assumption..].
      apply is_bytes_app_r in Hi. apply addressable_app_r in Ha.
      eapply many_loop_stops in El as (fs & e3 & -> & H2 & y & H3); [|apply parse_rawframe_sound, Hc|assumption..].
      right. exists (f :: fs), i3. split.
      { exists h, e1, (e2 ++ e3). rewrite <- !app_assoc. split; [exact H1|]. split; [now apply seq_l_cons|reflexivity]. }
      split; [discriminate|]. split; [exact Hne|]. split; [|reflexivity].
      eapply not_starts; [exact Hc| |exact H3]. now apply is_bytes_app_r in Hi.
    + injection H as ->. apply parse_rawframe_sound in E as (e2 & -> & Hf); [|assumption..].
      apply is_bytes_app_r in Hi. apply addressable_app_r in Ha. now apply many_loop_frames in El.
  - injection H as ->. left. exists i1. split.
    { exists h, e1, []. split; [exact H1|]. split; [apply seq_l_nil|reflexivity]. }
    split; [eapply not_starts; eassumption|].
    apply frame_err in E as [(y & [= <-] & E)|(y & E & _)]; [exact E|discriminate|assumption..].
Qed.

(** ** Corollaries *)
Lemma at_first c i f fs r r0 : at_frame c i (f :: fs) r -> at_frame c i [] r0 -> starts_frame c r0.
Proof.
  intros (h & e1 & e2 & H1 & H2 & ->) (h' & e1' & e2' & H1' & H2' & E).
  apply seq_l_nil_inv in H2' as ->. cbn [app] in E.
  apply seq_l_cons_inv in H2 as (a & b & -> & Hf & H2).
  apply header_l_zlen in H1, H1'. unfold zlen in *.
  assert (L : length e1 = length e1') by lia.
  apply (f_equal (skipn (length e1))) in E. rewrite skipn_length_app, L, skipn_length_app in E.
  exists f, a, (b ++ r). rewrite <- E, <- app_assoc. auto.
Qed.
Theorem later_error c i f fs r x : cfg_ok c -> is_bytes i -> addressable c i ->
  at_frame c i (f :: fs) r -> parse_raw_file c i = Err (NError x) ->
  exists fs' r', at_frame c i fs' r' /\ fs' <> [] /\ r' <> [] /\ ~ starts_frame c r' /\ x = ENom r' KEof.
Proof.
  intros Hc Hi Ha Hat H. destruct (error_cases c i x Hc Hi Ha H) as [G|[(r0 & G1 & G2 & _)|G]]; [| |exact G].
  - exfalso. destruct Hat as (h & e1 & e2 & H1 & _ & ->).
    assert (E : parse_header (e1 ++ e2 ++ r) = Err (NError x)) by (apply header_err; eauto).
    rewrite (parse_header_accepts _ _ _ H1) in E. discriminate.
  - exfalso. apply G2. eapply at_first; eassumption.
Qed.

Lemma raw_err_load c i e : parse_raw_file c i = Err e -> load c i = Err (LParse e).
Proof. intro H. unfold load, parse_file. rewrite H. reflexivity. Qed.
Theorem failure_load c i x : cfg_ok c -> is_bytes i -> addressable c i ->
  mistake c i x -> load c i = Err (LParse (NFailure x)).
Proof. intros Hc Hi Ha H. apply raw_err_load. now apply failure_iff. Qed.

Lemma raw_unused c i e : cfg_ok c -> is_bytes i -> addressable c i -> parse_raw_file c i = Err e ->
  match e with NError x => ~ unused x | NFailure x => ~ unused x end.
Proof.
  intros Hc Hi Ha H. destruct e as [x|x].
  - assert (X : forall r, explained r x -> ~ unused x) by (intro r; destruct x; cbn; auto; destruct k; auto).
    destruct (error_cases c i x Hc Hi Ha H) as [G|[(r0 & G1 & G2 & [G|(s & r & after & _ & _ & _ & _ & ->)])|G]].
    + destruct G as [[_ ->]|[(_ & _ & ->)|[(_ & _ & _ & ->)|(_ & _ & _ & _ & ->)]]]; exact (fun K => K).
    + exact (X _ G).
    + exact (fun K => K).
    + destruct G as (fs & r & _ & _ & _ & _ & ->). exact (fun K => K).
  - apply failure_iff in H; [|assumption..]. destruct H; exact (fun K => K).
Qed.

(** ** Files after their chunks are read *)
Lemma find_first {A} (f : A -> bool) l x : find f l = Some x ->
  exists before after, l = before ++ x :: after /\ Forall (fun y => f y = false) before /\ f x = true.
Proof.
  induction l as [|a l IH]; cbn [find]; [discriminate|]. destruct (f a) eqn:E.
  - intros [= <-]. exists [], l. repeat split; auto.
  - intro H. destruct (IH H) as (b & d & -> & H1 & H2). exists (a :: b), d. repeat split; auto.
Qed.
Lemma find_split {A} (f : A -> bool) before x after : f x = true -> Forall (fun y => f y = false) before ->
  find f (before ++ x :: after) = Some x.
Proof. intros Hx. induction 1 as [|a l Ha H IH]; cbn [app find]; [now rewrite Hx|]. now rewrite Ha. Qed.
Theorem file_failure_iff c i x : cfg_ok c -> is_bytes i -> addressable c i ->
  parse_file c i = Err (NFailure x) <->
  mistake c i x \/
  exists raw, raw_file_l (kept_error c) raw i /\
    ((exists e, palette_of raw = Err e /\ x = EPalette e) \/
     (exists pal before y after, palette_of raw = Ok pal /\ frame_cels raw = before ++ y :: after /\
        Forall (fun z => cc_layer_index z < layer_count raw) before /\
        layer_count raw < cc_layer_index y /\ x = ELayerIndexOutOfBounds)).
Proof.
  intros Hc Hi Ha. rewrite parse_file_eq by assumption. split.
  - intro H. destruct (parse_raw_file c i) as [raw|e|q] eqn:E; cbn [bind] in H; [| |discriminate].
    2:{ injection H as ->. left. now apply failure_iff. }
    right. exists raw. apply parse_raw_file_iff in E; [|assumption..]. split; [exact E|].
    unfold spec_outcome in H. destruct (palette_of raw) as [pal|e|q] eqn:Ep; [| |discriminate].
    2:{ injection H as <-. left. eauto. }
    right. destruct (find _ (frame_cels raw)) as [y|] eqn:Ef; [|discriminate].
    apply find_first in Ef as (before & after & Eb & Hb & Hy).
    unfold cel_failure in H. destruct (Z.ltb_spec (layer_count raw) (cc_layer_index y)); [|discriminate].
    injection H as <-. exists pal, before, y, after. repeat split; auto.
    eapply Forall_impl; [|exact Hb]. intros z Hz. cbv beta in Hz. unfold bad_cel in Hz. lia.
  - intros [H|(raw & Hr & H)].
    + apply failure_iff in H; [|assumption..]. rewrite H. reflexivity.
    + apply parse_raw_file_iff in Hr; [|assumption..]. rewrite Hr. cbn [bind]. unfold spec_outcome.
      destruct H as [(e & -> & ->)|(pal & before & y & after & -> & -> & Hb & Hy & ->)]; [reflexivity|].
      rewrite find_split.
      * unfold cel_failure. now replace (_ <? _) with true by lia.
      * unfold bad_cel. lia.
      * eapply Forall_impl; [|exact Hb]. intros z Hz. cbv beta in Hz. unfold bad_cel. lia.
Qed.

Theorem file_error_iff c i x : parse_file c i = Err (NError x) -> cfg_ok c -> is_bytes i -> addressable c i ->
  parse_raw_file c i = Err (NError x).
Proof.
  intros H Hc Hi Ha. rewrite parse_file_eq in H by assumption.
  destruct (parse_raw_file c i) as [raw|e|q]; cbn [bind] in H; [|congruence|discriminate].
  unfold spec_outcome in H. destruct (palette_of raw) as [pal|e|q]; [|discriminate..].
  destruct (find _ _) as [y|]; [|discriminate]. unfold cel_failure in H. destruct (_ <? _); discriminate.
Qed.
Theorem file_unused c i e : cfg_ok c -> is_bytes i -> addressable c i -> parse_file c i = Err e ->
  match e with NError x => ~ unused x | NFailure x => ~ unused x end.
Proof.
  intros Hc Hi Ha H. destruct e as [x|x].
  - apply file_error_iff in H; [|assumption..]. exact (raw_unused c i _ Hc Hi Ha H).
  - apply file_failure_iff in H as [H|(raw & _ & [(e & _ & ->)|(pal & b & y & a & _ & _ & _ & _ & ->)])]; [| | |assumption..].
    + apply failure_iff in H; [|assumption..]. exact (raw_unused c i _ Hc Hi Ha H).
    + exact (fun K => K).
    + exact (fun K => K).
Qed.
Lemma chunk_size_load c i fs cs n r : cfg_ok c -> is_bytes i -> addressable c i ->
  at_chunk c i fs cs (le 4 n ++ r) -> 0 <= n < 4 -> load c i = Err (LParse (NFailure (EInvalidFrameSize n))).
Proof. intros Hc Hi Ha H Hn. apply failure_load; try assumption. eapply wrong_chunk_size; eassumption. Qed.

(** A layer whose name is not UTF-8, in the second frame. *)
Definition bad_name : bytes := frm [layer_ch 1 0 0 255 [0xFF]].
Definition bad_name_file : bytes := hdr 2 32 1 1 ++ frm [layer_ch 1 0 0 255 [97]] ++ bad_name.
Definition one_frame_file : bytes := hdr 2 32 1 1 ++ frm [layer_ch 1 0 0 255 [97]].
Lemma bad_name_facts : forall c, cfg_ok c ->
  (exists raw, parse_raw_file c one_frame_file = Ok raw /\ length (rw_frames raw) = 1%nat) /\
  addressable c one_frame_file /\
  load c (hdr 1 32 1 1 ++ bad_name) = Err (LParse (NError (EUtf8 0 (Some 1)))) /\
  load c bad_name_file = Err (LParse (NError (ENom bad_name KEof))).
Proof.
  apply (cfg_cases (fun c =>
    (exists raw, parse_raw_file c one_frame_file = Ok raw /\ length (rw_frames raw) = 1%nat) /\
    addressable c one_frame_file /\
    load c (hdr 1 32 1 1 ++ bad_name) = Err (LParse (NError (EUtf8 0 (Some 1)))) /\
    load c bad_name_file = Err (LParse (NError (ENom bad_name KEof)))));
  (split; [eexists; split; [vm_compute; reflexivity|reflexivity]|]; vm_compute; auto).
Qed.
Lemma bad_name_lost c : cfg_ok c -> exists f,
  at_frame c bad_name_file [f] bad_name /\
  load c (hdr 1 32 1 1 ++ bad_name) = Err (LParse (NError (EUtf8 0 (Some 1)))) /\
  load c bad_name_file = Err (LParse (NError (ENom bad_name KEof))).
Proof.
  intro Hc. destruct (bad_name_facts c Hc) as ((raw & E & Hn) & Ha & Hl).
  assert (Hi : is_bytes one_frame_file) by (apply bytes_by_compute; reflexivity).
  apply parse_raw_file_iff in E as (e1 & e2 & H1 & H2 & H3 & H4); [|assumption..].
  destruct (rw_frames raw) as [|f [|g l]]; try discriminate Hn.
  exists f. split; [|exact Hl].
  exists (rw_header raw), e1, e2. split; [exact H1|]. split; [exact H3|].
  rewrite app_assoc, <- H4. unfold bad_name_file, one_frame_file. now rewrite app_assoc.
Qed.
