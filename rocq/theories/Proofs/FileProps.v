(** [parse_file] computes the sprite described by Spec/FileSpec.v. *)
From Verif.Model Require Import File.
From Verif.Spec Require Import Bytes Format FileSpec Slices.
From Verif.Proofs Require Import ParseLib RawFacts Safety SlicesFacts BinaryProps BinaryFinal FileFacts PaletteFacts.

Definition payload_some (c : cfg) (x : chunk) : Prop := exists d, payload_l (kept_error c) x d.

Lemma Forall2_Forall_ex {A B} (R : A -> B -> Prop) l l' : Forall2 R l l' -> Forall (fun a => exists b, R a b) l.
Proof. induction 1; constructor; eauto. Qed.

Lemma raw_payloads c i raw : cfg_ok c -> is_bytes i -> addressable c i -> parse_raw_file c i = Ok raw ->
  rw_frames raw <> [] /\ (exists e, header_l (rw_header raw) e) /\
  Forall (fun fr => u16 (rf_duration fr) /\ Forall (payload_some c) (rf_chunks fr)) (rw_frames raw).
Proof.
  intros Hc Hi Ha H. apply parse_raw_file_iff in H as (e1 & e2 & H1 & H2 & (ps & H3 & _) & _); [|assumption..].
  split; [exact H2|]. split; [eauto|].
  apply Forall2_Forall_ex in H3. eapply Forall_impl; [|exact H3].
  intros fr (b & old & new & g1 & body & g2 & ? & ? & ? & ? & ? & ? & (ps' & Hf & _) & _).
  split; [assumption|]. apply Forall2_Forall_ex in Hf. eapply Forall_impl; [|exact Hf].
  intros x (b' & d & ? & Hp & _). now exists d.
Qed.

Lemma Forall_seq {A} (L : A -> bytes -> Prop) (P : A -> Prop) l e :
  (forall a e, L a e -> P a) -> seq_l L l e -> Forall P l.
Proof.
  intros H (ps & Hf & _). apply Forall2_Forall_ex in Hf. eapply Forall_impl; [|exact Hf].
  intros a [b Hb]. eauto.
Qed.

Lemma payload_fresh c x : payload_some c x -> fresh_chunk x.
Proof.
  intros [d H]. destruct x; try exact I. destruct H as (e & g & (ig & body & _ & _ & H & _) & _).
  revert H. apply Forall_seq. intros t0 e' (dir & ig' & last & en & H). unfold fresh_tag. intuition.
Qed.

Lemma payload_palette c x : payload_some c x -> palette_chunk_ok x.
Proof.
  assert (Ho : forall p d, prefix_l old_palette_l p d -> old_ok p).
  { intros p d (e & g & (body & _ & H & _) & _). revert H. apply Forall_seq.
    intros pk e' (n & b & H1 & H2 & H3 & _). unfold u8, uint in *. cbn in *.
    split; [lia|]. rewrite H3. destruct (n =? 0); lia. }
  intros [d H]. destruct x; try exact I; cbn [payload_l] in H.
  - eapply Ho, H.
  - eapply Ho, H.
  - destruct H as (e & g & (ig & body & H) & _). split; intuition.
Qed.

Lemma all_chunks_Forall (P : chunk -> Prop) fs :
  Forall (fun fr => Forall P (rf_chunks fr)) fs -> Forall P (all_chunks fs).
Proof. intro H. eapply Forall_flat_map_of; [exact H|]. auto. Qed.

Lemma suffixes_in x r cs : In (x, r) (suffixes cs) -> exists a, cs = a ++ x :: r.
Proof.
  induction cs as [|y cs IH]; cbn; [tauto|]. intros [[= -> ->]|H]; [now exists []|].
  destruct (IH H) as [a ->]. now exists (y :: a).
Qed.

Lemma suffixes_flat_in {B} (f : chunk * list chunk -> list B) b cs : In b (flat_map f (suffixes cs)) ->
  exists x r a, cs = a ++ x :: r /\ In b (f (x, r)).
Proof.
  intro H. apply in_flat_map in H as ([x r] & H1 & H2). apply suffixes_in in H1 as [a ->]. eauto 6.
Qed.

Lemma spec_cels_in y cs : In y (spec_cels cs) ->
  exists x r a, cs = a ++ ChCel x :: r /\ y = cel_with x (own r).
Proof.
  intro H. apply suffixes_flat_in in H as (x & r & a & -> & H). destruct x; try contradiction.
  destruct H as [<-|[]]. eauto 6.
Qed.

Lemma spec_cels_index c cs : Forall (payload_some c) cs ->
  Forall (fun x => 0 <= cc_layer_index x < 65536) (spec_cels cs).
Proof.
  intro H. apply Forall_forall. intros y Hy. apply spec_cels_in in Hy as (x & r & a & -> & ->).
  apply Forall_app in H as [_ H]. inversion H as [|? ? Hx _]; subst.
  destruct Hx as [d Hx]. destruct Hx as (ty & ig & body & H1 & _). unfold u16, uint in H1. cbn in *. lia.
Qed.

Lemma flat_map_map {A B C} (f : B -> list C) (g : A -> B) l : flat_map f (map g l) = flat_map (fun a => f (g a)) l.
Proof. induction l; cbn; [reflexivity|]. now f_equal. Qed.

Theorem parse_file_eq c i : cfg_ok c -> is_bytes i -> addressable c i ->
  parse_file c i =
    let* raw := parse_raw_file c i in spec_outcome raw.
Proof.
  intros Hc Hi Ha. unfold parse_file.
  destruct (parse_raw_file c i) as [raw|?|?] eqn:E; [|reflexivity..]. cbn [bind].
  destruct (raw_payloads c i raw Hc Hi Ha E) as (Hne & (eh & Hh) & Hp).
  assert (Hpay : Forall (fun fr => Forall (payload_some c) (rf_chunks fr)) (rw_frames raw)).
  { eapply Forall_impl; [|exact Hp]. now intros ? []. }
  assert (Hfresh : Forall (fun fr => Forall fresh_chunk (rf_chunks fr)) (rw_frames raw)).
  { eapply Forall_impl; [|exact Hpay]. intros fr H. eapply Forall_impl; [|exact H]. apply payload_fresh. }
  assert (Hpal : Forall palette_chunk_ok (all_chunks (rw_frames raw))).
  { apply all_chunks_Forall. eapply Forall_impl; [|exact Hpay]. intros fr H. eapply Forall_impl; [|exact H]. apply payload_palette. }
  assert (Hti : 0 <= h_transparent_index (rw_header raw) < 256).
  { destruct Hh as (? & ? & ? & H). unfold u8, uint in H. cbn in H. lia. }
  rewrite create_palette_spec by assumption.
  set (rest := fun pal : option palette => _).
  assert (Hrest : forall pal, rest pal =
     match find (bad_cel (layer_count raw)) (frame_cels raw) with
        | None => Ok (file_of raw pal)
        | Some x => cel_failure (layer_count raw) x
        end).
  { intro pal. unfold rest. clear rest. unfold file_of.
    destruct (rw_frames raw) as [|fr frs] eqn:Ef; [contradiction|].
    destruct (frames_spec fr frs Hfresh) as (cels & Hs). unfold init_state in Hs. rewrite Hs. clear Hs.
    cbn [bind st_layers st_tags st_slices st_user_data].
    assert (Hl : flat_map (fun f => spec_layers (rf_chunks f)) (fr :: frs) = spec_all_layers raw)
      by (unfold spec_all_layers; now rewrite Ef).
    rewrite Hl. fold (layer_count raw).
    rewrite insert_all.
    - rewrite flat_map_map. cbn [snd].
      assert (Hcels : flat_map (fun a => spec_cels (rf_chunks a)) (fr :: frs) = frame_cels raw)
        by (unfold frame_cels; now rewrite Ef).
      rewrite Hcels. destruct (find _ _) as [x|]; cbn [bind].
      + unfold cel_failure. now destruct (_ <? _).
      + rewrite map_map. reflexivity.
    - apply zlen_nonneg.
    - apply Forall_map. eapply Forall_impl; [|exact Hpay]. cbn [snd]. intros f H.
      apply spec_cels_index in H. eapply Forall_impl; [|exact H]. cbn. intros. lia. }
  unfold spec_outcome, palette_of. destruct (h_color_depth (rw_header raw)); cbn [bind]; try apply Hrest.
  destruct (spec_palette _ _) as [p|e]; cbn [sum_out map_err bind]; [apply Hrest|reflexivity].
Qed.

(** ** Consequences *)
Lemma parse_file_outcome c i raw : cfg_ok c -> is_bytes i -> addressable c i ->
  raw_file_l (kept_error c) raw i -> parse_file c i = spec_outcome raw.
Proof.
  intros Hc Hi Ha H. rewrite parse_file_eq by assumption.
  apply parse_raw_file_iff in H; [|assumption..]. now rewrite H.
Qed.

Lemma spec_outcome_ok raw f : spec_outcome raw = Ok f ->
  exists pal, palette_of raw = Ok pal /\ f = file_of raw pal /\
    Forall (fun x => cc_layer_index x < layer_count raw) (frame_cels raw).
Proof.
  unfold spec_outcome. destruct (palette_of raw) as [pal|?|?]; try discriminate.
  destruct (find _ _) as [x|] eqn:E.
  - unfold cel_failure. destruct (_ <? _); discriminate.
  - intros [= <-]. exists pal. split; [reflexivity|]. split; [reflexivity|].
    apply Forall_forall. intros x Hx. pose proof (find_none _ _ E x Hx) as Hb. unfold bad_cel in Hb. lia.
Qed.

Lemma parse_file_ok c i f : cfg_ok c -> is_bytes i -> addressable c i -> parse_file c i = Ok f ->
  exists raw pal, raw_file_l (kept_error c) raw i /\ parse_raw_file c i = Ok raw /\
    palette_of raw = Ok pal /\ f = file_of raw pal /\
    Forall (fun x => cc_layer_index x < layer_count raw) (frame_cels raw).
Proof.
  intros Hc Hi Ha H. rewrite parse_file_eq in H by assumption.
  destruct (parse_raw_file c i) as [raw|?|?] eqn:E; cbn [bind] in H; try discriminate.
  apply spec_outcome_ok in H as (pal & H1 & H2 & H3). exists raw, pal.
  split; [now apply parse_raw_file_iff|]. auto.
Qed.

Lemma parse_file_panic c i q : cfg_ok c -> is_bytes i -> addressable c i -> parse_file c i = Panic q ->
  (debug c = true /\ q = POverflow) \/
  (q = PIndex /\ exists raw x, raw_file_l (kept_error c) raw i /\ In x (frame_cels raw) /\
     cc_layer_index x = layer_count raw).
Proof.
  intros Hc Hi Ha H. rewrite parse_file_eq in H by assumption.
  destruct (parse_raw_file c i) as [raw|?|p] eqn:E; cbn [bind] in H; try discriminate.
  - right. unfold spec_outcome in H.
    destruct (palette_of raw) as [pal|?|p] eqn:Ep; try discriminate.
    + destruct (find _ _) as [x|] eqn:Ef; [|discriminate].
      apply find_some in Ef as [Hin Hb]. unfold bad_cel in Hb. unfold cel_failure in H.
      destruct (Z.ltb_spec (layer_count raw) (cc_layer_index x)); [discriminate|].
      injection H as <-. split; [reflexivity|]. exists raw, x.
      split; [now apply parse_raw_file_iff|]. split; [exact Hin|lia].
    + unfold palette_of in Ep. destruct (h_color_depth _); try discriminate.
      destruct (spec_palette _ _); discriminate.
  - left. injection H as <-. eapply parse_raw_file_overflow; eassumption.
Qed.

(** ** Cels *)
Lemma cel_at_some k cs x : cel_at k cs = Some x <->
  exists a b, cs = a ++ x :: b /\ cc_layer_index x = k /\ Forall (fun y => cc_layer_index y <> k) b.
Proof.
  unfold cel_at. induction cs as [|y cs IH] using rev_ind.
  - cbn. split; [discriminate|]. intros (a & b & H & _). now destruct a.
  - rewrite rev_app_distr. cbn [rev app find]. destruct (Z.eqb_spec (cc_layer_index y) k) as [Hy|Hy].
    + split.
      * intros [= <-]. exists cs, []. auto.
      * intros (a & b & H & Hx & Hb). destruct b as [|z b _] using rev_ind.
        -- apply app_inj_tail in H as [_ ->]. reflexivity.
        -- rewrite app_comm_cons, app_assoc in H. apply app_inj_tail in H as [_ ->].
           apply Forall_app in Hb as [_ Hb]. inversion Hb. contradiction.
    + rewrite IH. split.
      * intros (a & b & -> & Hx & Hb). exists a, (b ++ [y]). rewrite <- app_assoc. split; [reflexivity|].
        split; [exact Hx|]. apply Forall_app. auto.
      * intros (a & b & H & Hx & Hb). destruct b as [|z b _] using rev_ind.
        -- apply app_inj_tail in H as [_ ->]. contradiction.
        -- rewrite app_comm_cons, app_assoc in H. apply app_inj_tail in H as [-> ->].
           apply Forall_app in Hb as [Hb _]. eauto.
Qed.

Lemma cel_at_none k cs : cel_at k cs = None <-> Forall (fun y => cc_layer_index y <> k) cs.
Proof.
  unfold cel_at. split.
  - intro H. apply Forall_forall. intros x Hx. apply in_rev in Hx. pose proof (find_none _ _ H x Hx). cbn in *. lia.
  - intro H. destruct (find _ _) as [x|] eqn:E; [|reflexivity]. apply find_some in E as [Hin Hx].
    apply in_rev in Hin. rewrite Forall_forall in H. specialize (H x Hin). lia.
Qed.

Lemma slots_length n cs : 0 <= n -> zlen (slots n cs) = n.
Proof. intro H. unfold slots, zlen. rewrite map_length, zrange_length. lia. Qed.

Lemma slots_nth n cs j : (j < Z.to_nat n)%nat -> nth_error (slots n cs) j = Some (cel_at (Z.of_nat j) cs).
Proof. intro H. unfold slots. now rewrite nth_error_map, zrange_nth. Qed.

Lemma slots_index c i f fr j x : cfg_ok c -> is_bytes i -> addressable c i -> parse_file c i = Ok f ->
  In fr (f_frames f) -> nth_error (fr_cels fr) j = Some (Some x) -> cc_layer_index x = Z.of_nat j.
Proof.
  intros Hc Hi Ha H Hfr Hj. apply parse_file_ok in H as (raw & pal & _ & _ & _ & -> & _); [|assumption..].
  cbn [file_of f_frames] in Hfr. apply in_map_iff in Hfr as (rf & <- & _). cbn [fr_cels] in Hj.
  assert (Hl : (j < length (slots (layer_count raw) (spec_cels (rf_chunks rf))))%nat)
    by (apply nth_error_Some; congruence).
  unfold slots in Hl. rewrite map_length, zrange_length in Hl. rewrite slots_nth in Hj by exact Hl.
  injection Hj as Hj. apply cel_at_some in Hj as (a & b & _ & Hx & _). exact Hx.
Qed.

(** ** User data is attached at most once *)
Lemma followers_bounded a y b : (forall u, y <> ChUserData u) ->
  (length (followers (a ++ y :: b)) <= length a)%nat.
Proof.
  intro Hy. induction a as [|x a IH]; cbn.
  - destruct y; cbn; try lia. now destruct (Hy u).
  - destruct x; cbn; lia.
Qed.

(** ** Old palettes *)
Definition packet_span (p : packet) : Z := pk_entries_to_skip p + zlen (pk_colors p).

Lemma old_writes_none ps : Forall packet_ok ps -> forall a, 0 <= a <= 256 ->
  old_writes a ps = None <-> 256 < fold_left (fun k p => k + packet_span p) ps a.
Proof.
  assert (Mono : forall ps a, Forall packet_ok ps -> a <= fold_left (fun k p => k + packet_span p) ps a).
  { induction ps0 as [|p ps0 IH]; intros a H; cbn; [lia|]. inversion H as [|? ? [H1 H2] H3]; subst.
    specialize (IH (a + packet_span p) H3). unfold packet_span in *. pose proof (zlen_nonneg (pk_colors p)). lia. }
  induction 1 as [|p ps [H1 H2] H IH]; intros a Ha; cbn [old_writes fold_left].
  - split; [discriminate|lia].
  - pose proof (zlen_nonneg (pk_colors p)).
    destruct (Z.ltb_spec 256 (a + pk_entries_to_skip p + zlen (pk_colors p))) as [Hlt|Hle].
    + split; [intros _|reflexivity]. specialize (Mono ps (a + packet_span p) H). unfold packet_span in *. lia.
    + specialize (IH (a + packet_span p)). unfold packet_span in *.
      replace (a + pk_entries_to_skip p + zlen (pk_colors p)) with (a + (pk_entries_to_skip p + zlen (pk_colors p))) by lia.
      rewrite <- IH by lia. destruct (old_writes _ ps); split; congruence.
Qed.

Lemma old_writes_all_none chs : Forall old_ok chs ->
  old_writes_all chs = None <->
  exists ch, In ch chs /\ 256 < fold_left (fun k p => k + packet_span p) (op_packets ch) 0.
Proof.
  induction 1 as [|ch chs H1 H IH]; cbn [old_writes_all].
  - split; [discriminate|]. intros (ch & [] & _).
  - pose proof (old_writes_none _ H1 0 ltac:(lia)) as Hn.
    destruct (old_writes 0 (op_packets ch)) as [a|].
    + destruct (old_writes_all chs) as [b|].
      * split; [discriminate|]. intros (ch' & [<-|Hin] & Hch); [apply Hn in Hch; discriminate|].
        assert (None = Some b) by (symmetry; apply IH; eauto). discriminate.
      * split; [|reflexivity]. intros _. destruct (proj1 IH eq_refl) as (ch' & Hin & Hch).
        exists ch'. cbn. auto.
    + split; [|reflexivity]. intros _. exists ch. split; [now left|]. now apply Hn.
Qed.

(** ** Palettes *)
Lemma assigned_last a k x b : Forall (fun w => fst w <> k) b -> assigned (a ++ (k, x) :: b) k = x.
Proof.
  intro H. unfold assigned. rewrite rev_app_distr. cbn [rev]. rewrite <- !app_assoc, find_app.
  destruct (find _ (rev b)) as [w|] eqn:E.
  - apply find_some in E as [Hin He]. apply in_rev in Hin. rewrite Forall_forall in H. specialize (H _ Hin). lia.
  - cbn [app find fst]. now rewrite Z.eqb_refl.
Qed.
Lemma assigned_none ws k : Forall (fun w => fst w <> k) ws ->
  assigned ws k = {| red := 0; green := 0; blue := 0; alpha := 0 |}.
Proof.
  intro H. unfold assigned. destruct (find _ (rev ws)) as [w|] eqn:E; [|reflexivity].
  apply find_some in E as [Hin He]. apply in_rev in Hin. rewrite Forall_forall in H. specialize (H _ Hin). lia.
Qed.

Lemma spec_palette_nth i fs p : spec_palette i fs = inl p ->
  exists ws, spec_writes fs = inl ws /\ ws <> [] /\ zlen p = 256 /\
    forall k, (k < 256)%nat -> nth_error p k = Some (spec_color i ws (Z.of_nat k)).
Proof.
  unfold spec_palette. destruct (spec_writes fs) as [[|w ws]|]; try discriminate.
  intros [= <-]. exists (w :: ws). split; [reflexivity|]. split; [discriminate|]. split; [apply zlen_256|].
  intros k Hk. now apply nth_256.
Qed.

(** ** Slices of the input (C22) *)
Lemma chunk_in_raw raw fr x : In fr (rw_frames raw) -> In x (rf_chunks fr) ->
  forall s, In s (chunk_slices x) -> In s (raw_slices raw).
Proof. intros H1 H2 s Hs. unfold raw_slices. apply in_flat_map. exists fr. split; [exact H1|]. apply in_flat_map. eauto. Qed.

Lemma followers_in u cs : In u (followers cs) -> In (ChUserData u) cs.
Proof.
  induction cs as [|x cs IH]; cbn; [tauto|]. destruct x; cbn; try tauto. intros [->|H]; auto.
Qed.
Lemma own_in r u : own r = Some u -> In (ChUserData u) r.
Proof. intro H. apply followers_in. now apply nth_error_In in H. Qed.

Lemma give_in t tags us : In t (give tags us) ->
  exists t0 u, In t0 tags /\ t = tag_with t0 u /\ (forall v, u = Some v -> In v us).
Proof.
  revert us. induction tags as [|t0 ts IH]; intros us; cbn [give]; [intros []|].
  intros [<-|H].
  - exists t0, (nth_error us 0). split; [now left|]. split; [reflexivity|]. intros v Hv. now apply nth_error_In in Hv.
  - apply IH in H as (t1 & u & H1 & -> & H2). exists t1, u. split; [now right|]. split; [reflexivity|].
    intros v Hv. apply H2 in Hv. destruct us; [destruct Hv|]. now right.
Qed.

Section RawSlices.
Context (raw : raw_file).
Let S s := In s (raw_slices raw).

Lemma ud_slices fr u : In fr (rw_frames raw) -> In (ChUserData u) (rf_chunks fr) ->
  forall s, In s (user_data_slices u) -> S s.
Proof. intros H1 H2 s Hs. eapply chunk_in_raw; eassumption. Qed.

Lemma own_slices fr a x r : In fr (rw_frames raw) -> rf_chunks fr = a ++ x :: r ->
  forall s, In s (opt_list user_data_slices (own r)) -> S s.
Proof.
  intros H1 H2 s Hs. destruct (own r) as [u|] eqn:E; [|destruct Hs].
  apply own_in in E. eapply ud_slices; [exact H1| |exact Hs]. rewrite H2. apply in_or_app. right. now right.
Qed.

Lemma file_slices_raw pal s : In s (file_slices (file_of raw pal)) -> S s.
Proof.
  unfold file_slices. rewrite !in_app_iff. cbn [file_of f_layers f_frames f_tags f_slices f_user_data].
  intros [H|[H|[H|[H|H]]]].
  - apply in_flat_map in H as (l & Hl & Hs). apply in_flat_map in Hl as (fr & Hfr & Hl).
    apply suffixes_flat_in in Hl as (x & r & a & Hcs & Hl). destruct x; try contradiction.
    destruct Hl as [<-|[]]. unfold layer_slices in Hs. cbn [lc_name layer_with lc_user_data] in Hs.
    destruct Hs as [<-|Hs].
    + eapply chunk_in_raw; [exact Hfr|rewrite Hcs; apply in_or_app; right; left; reflexivity|now left].
    + eapply own_slices; eassumption.
  - apply in_flat_map in H as (f & Hf & Hs). apply in_map_iff in Hf as (fr & <- & Hfr).
    apply in_flat_map in Hs as (o & Ho & Hs). cbn [fr_cels] in Ho. destruct o as [y|]; [|destruct Hs].
    apply in_map_iff in Ho as (k & Hk & _). apply cel_at_some in Hk as (pre & post & Hcels & _).
    assert (Hy : In y (spec_cels (rf_chunks fr))) by (rewrite Hcels; apply in_or_app; right; now left).
    apply spec_cels_in in Hy as (x & r & a & Hcs & ->). cbn [opt_list] in Hs. unfold cel_slices in Hs.
    cbn [cc_content cel_with cc_user_data] in Hs. apply in_app_iff in Hs as [Hs|Hs].
    + eapply chunk_in_raw; [exact Hfr| |].
      * rewrite Hcs. apply in_or_app. right. left. reflexivity.
      * cbn [chunk_slices]. unfold cel_slices. apply in_or_app. now left.
    + eapply own_slices; eassumption.
  - apply in_flat_map in H as (t & Ht & Hs). apply in_flat_map in Ht as (fr & Hfr & Ht).
    apply suffixes_flat_in in Ht as (x & r & a & Hcs & Ht). destruct x; try contradiction.
    apply give_in in Ht as (t1 & u & Ht1 & -> & Hu). unfold tag_slices in Hs.
    cbn [tg_color tg_name tg_user_data tag_with] in Hs.
    assert (Hin : In (ChTags t0) (rf_chunks fr)) by (rewrite Hcs; apply in_or_app; right; now left).
    destruct Hs as [<-|[<-|Hs]].
    + eapply chunk_in_raw; [exact Hfr|exact Hin|]. cbn [chunk_slices]. apply in_flat_map. exists t1. split; [exact Ht1|now left].
    + eapply chunk_in_raw; [exact Hfr|exact Hin|]. cbn [chunk_slices]. apply in_flat_map. exists t1. split; [exact Ht1|right; now left].
    + destruct u as [u|]; [|destruct Hs]. eapply ud_slices; [exact Hfr| |exact Hs].
      rewrite Hcs. apply in_or_app. right. right. apply followers_in. now apply Hu.
  - apply in_flat_map in H as (l & Hl & Hs). apply in_flat_map in Hl as (fr & Hfr & Hl).
    apply suffixes_flat_in in Hl as (x & r & a & Hcs & Hl). destruct x; try contradiction.
    destruct Hl as [<-|[]]. unfold slice_slices in Hs. cbn [sc_name slice_with sc_user_data] in Hs.
    destruct Hs as [<-|Hs].
    + eapply chunk_in_raw; [exact Hfr|rewrite Hcs; apply in_or_app; right; left; reflexivity|now left].
    + eapply own_slices; eassumption.
  - revert H. destruct (rw_frames raw) as [|fr frs] eqn:Ef; [intros []|].
    destruct (spec_sprite_data (rf_chunks fr)) as [u|] eqn:E; [|intros []]. intro H.
    apply nth_error_In in E. apply suffixes_flat_in in E as (x & r & a & Hcs & Hu).
    destruct (is_palette_chunk x); [|destruct Hu].
    eapply ud_slices; [rewrite Ef; now left| |exact H]. rewrite Hcs. apply in_or_app. right. right.
    apply followers_in. destruct (followers r); [destruct Hu|]. destruct Hu as [<-|[]]. now left.
Qed.
End RawSlices.

Lemma file_slices_infix c i f s : cfg_ok c -> is_bytes i -> addressable c i ->
  parse_file c i = Ok f -> In s (file_slices f) -> infix s i.
Proof.
  intros Hc Hi Ha H Hs. apply parse_file_ok in H as (raw & pal & _ & Hr & _ & -> & _); [|assumption..].
  eapply raw_slices_infix; [eassumption..|]. eapply file_slices_raw, Hs.
Qed.
