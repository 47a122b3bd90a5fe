(** The statements of Properties/File.v in the form given there. *)
From Coq Require Import Sorted.
From Verif.Model Require Import Loader.
From Verif.Spec Require Import Bytes Format FileSpec Slices LoaderSpec.
From Verif.Proofs Require Import ParseLib RawFacts Safety BinaryProps BinaryFinal FileFacts PaletteFacts
  FileProps LoaderFacts LoaderProps.
From Verif.Tests Require Import Configs Build.

Lemma cfg_cases (P : cfg -> Prop) : P dbg64 -> P rel64 -> P dbg32 -> P rel32 -> forall c, cfg_ok c -> P c.
Proof. intros H1 H2 H3 H4 [d u] [E|E]; cbn in E; subst u; destruct d; assumption. Qed.

(** ** C01 *)
Definition boundary_file : bytes :=
  hdr 1 32 1 1 ++ frm [layer_ch 1 0 0 255 [97]; raw_cel_ch 1 0 0 255 1 1 [1; 2; 3; 4]].
Definition short_area_file : bytes := hdr 1 32 1 1 ++ frm [layer_ch 1 0 0 255 [97]; properties_ch 7].

Lemma layer_index_panics c : cfg_ok c -> exists i, is_bytes i /\ addressable c i /\ load c i = Panic PIndex.
Proof.
  revert c. apply cfg_cases; (exists boundary_file; split; [apply bytes_by_compute; reflexivity|]; split; vm_compute; reflexivity).
Qed.

Lemma short_area_panics c : cfg_ok c -> debug c = true ->
  exists i, is_bytes i /\ addressable c i /\ load c i = Panic POverflow.
Proof.
  revert c. apply (cfg_cases (fun c => debug c = true -> exists i, is_bytes i /\ addressable c i /\ load c i = Panic POverflow)); intro D; try discriminate D;
    (exists short_area_file; split; [apply bytes_by_compute; reflexivity|]; split; vm_compute; reflexivity).
Qed.

Lemma load_panics c i q : cfg_ok c -> is_bytes i -> addressable c i -> load c i = Panic q ->
  (debug c = true /\ q = POverflow) \/
  (q = PIndex /\ exists raw x, raw_file_l (kept_error c) raw i /\ In x (frame_cels raw) /\
     cc_layer_index x = layer_count raw).
Proof. intros Hc Hi Ha H. apply load_panic in H. now apply parse_file_panic. Qed.

Lemma find_split {A} (f : A -> bool) l x : find f l = Some x ->
  exists a b, l = a ++ x :: b /\ Forall (fun y => f y = false) a /\ f x = true.
Proof.
  induction l as [|y l IH]; cbn; [discriminate|]. destruct (f y) eqn:E.
  - intros [= ->]. exists [], l. auto.
  - intro H. destruct (IH H) as (a & b & -> & H1 & H2). exists (y :: a), b. auto.
Qed.
Lemma find_split_inv {A} (f : A -> bool) a x b : Forall (fun y => f y = false) a -> f x = true ->
  find f (a ++ x :: b) = Some x.
Proof. induction 1 as [|y a Hy H IH]; intro Hx; cbn; [now rewrite Hx|]. rewrite Hy. auto. Qed.

Lemma palette_of_panic raw q : palette_of raw <> Panic q.
Proof. unfold palette_of. destruct (h_color_depth _); try discriminate. destruct (spec_palette _ _); discriminate. Qed.

Lemma load_release_panics c i q : cfg_ok c -> is_bytes i -> addressable c i -> debug c = false ->
  load c i = Panic q <->
  q = PIndex /\ exists raw pal before x after,
    raw_file_l (kept_error c) raw i /\ palette_of raw = Ok pal /\
    frame_cels raw = before ++ x :: after /\
    Forall (fun y => cc_layer_index y < layer_count raw) before /\
    cc_layer_index x = layer_count raw.
Proof.
  intros Hc Hi Ha Hd. rewrite load_panic, parse_file_eq by assumption. split.
  - destruct (parse_raw_file c i) as [raw|?|p] eqn:E; cbn [bind]; try discriminate.
    + unfold spec_outcome. destruct (palette_of raw) as [pal|?|p] eqn:Ep; try discriminate;
        [|destruct (palette_of_panic _ _ Ep)].
      destruct (find _ _) as [x|] eqn:Ef; [|discriminate].
      apply find_split in Ef as (a & b & Hl & Hf & Hx). unfold bad_cel in *. unfold cel_failure.
      destruct (Z.ltb_spec (layer_count raw) (cc_layer_index x)); [discriminate|].
      intros [= <-]. split; [reflexivity|]. exists raw, pal, a, x, b.
      split; [now apply parse_raw_file_iff|]. split; [exact Ep|]. split; [exact Hl|]. split; [|lia].
      eapply Forall_impl; [|exact Hf]. cbn. intros. lia.
    + intros [= <-]. apply parse_raw_file_overflow in E as [Hdb _]; [|assumption]. congruence.
  - intros (-> & raw & pal & a & x & b & Hr & Ep & Hl & Hf & Hx).
    apply parse_raw_file_iff in Hr; [|assumption..]. rewrite Hr. cbn [bind]. unfold spec_outcome. rewrite Ep, Hl.
    rewrite find_split_inv.
    + unfold cel_failure. replace (_ <? _) with false by lia. reflexivity.
    + eapply Forall_impl; [|exact Hf]. unfold bad_cel. cbn. intros. lia.
    + unfold bad_cel. lia.
Qed.

Lemma load_terminates c i : cfg_ok c -> is_bytes i -> addressable c i -> load c i <> Panic PFuel.
Proof.
  intros Hc Hi Ha H. apply load_panics in H as [[_ H]|[H _]]; [discriminate..|assumption|assumption|assumption].
Qed.

(** ** C08, C14 *)
Definition header_lies_file : bytes := hdr 7 32 1 1 ++ frm [] ++ frm [].
Lemma header_frames_wrong c : cfg_ok c -> exists i s, is_bytes i /\ addressable c i /\ load c i = Ok s /\
  h_frames (f_header (af_file s)) = 7 /\ zlen (api_frames s) = 2.
Proof.
  revert c. apply cfg_cases; (exists header_lies_file; eexists; split; [apply bytes_by_compute; reflexivity|];
    split; [vm_compute; reflexivity|]; split; [vm_compute; reflexivity|]; split; reflexivity).
Qed.

Lemma frames_counted c i s : cfg_ok c -> is_bytes i -> addressable c i -> load c i = Ok s ->
  exists raw, raw_file_l (kept_error c) raw i /\ zlen (api_frames s) = zlen (rw_frames raw) /\
    map sf_duration (api_frames s) = map rf_duration (rw_frames raw).
Proof.
  intros Hc Hi Ha H. pose proof (loaded_parse c i s H) as Hp.
  destruct (parse_file_ok c i _ Hc Hi Ha Hp) as (raw & pal & Hr & _ & _ & Ef & _).
  exists raw. split; [exact Hr|]. destruct (build_sprite_ok _ _ (loaded_build c i s H)) as (_ & _ & _ & _ & HF).
  unfold api_frames.
  assert (D : map sf_duration (af_frames s) = map rf_duration (rw_frames raw)).
  { transitivity (map fr_duration (f_frames (af_file s))); [|rewrite Ef; cbn [file_of f_frames]; now rewrite map_map].
    revert HF. generalize (shows (f_frames (af_file s))) as R, (0, 0) as o. generalize (f_frames (af_file s)) as fs, (af_frames s) as sfs, 0 as k.
    clear. induction fs as [|fr fs IH]; intros sfs k R o HF; cbn in HF; inversion HF as [|? sf ? sfs' [Hd _] HF']; subst; cbn; [reflexivity|].
    f_equal; [exact Hd|]. eapply IH, HF'. }
  split; [|exact D]. apply (f_equal (@length Z)) in D. rewrite !map_length in D. unfold zlen. lia.
Qed.

Definition tag_past_end_file : bytes := hdr 1 32 1 1 ++ frm [tags_ch [(3, 9, [116])]].
Lemma tag_past_end c : cfg_ok c -> exists i s t, is_bytes i /\ addressable c i /\ load c i = Ok s /\
  In t (api_tags s) /\ stag_range t = (3, 9) /\ zlen (api_frames s) = 1.
Proof.
  revert c. apply cfg_cases; (exists tag_past_end_file; eexists _, _; split; [apply bytes_by_compute; reflexivity|];
    split; [vm_compute; reflexivity|]; split; [vm_compute; reflexivity|]; split; [left; reflexivity|]; split; reflexivity).
Qed.

Lemma tags_ordered c i s t : cfg_ok c -> is_bytes i -> addressable c i -> load c i = Ok s ->
  In t (api_tags s) -> 0 <= fst (stag_range t) <= snd (stag_range t) /\ snd (stag_range t) < 65536.
Proof.
  intros Hc Hi Ha H Ht. pose proof (loaded_parse c i s H) as Hp.
  destruct (build_sprite_ok _ _ (loaded_build c i s H)) as (_ & _ & Et & _).
  unfold api_tags in Ht. rewrite Et in Ht. apply in_map_iff in Ht as (t0 & <- & Ht).
  destruct (parse_file_ok c i _ Hc Hi Ha Hp) as (raw & pal & _ & Hr & _ & Ef & _).
  rewrite Ef in Ht. cbn [file_of f_tags] in Ht. apply in_flat_map in Ht as (fr & Hfr & Ht).
  apply suffixes_flat_in in Ht as (x & r & a & Hcs & Ht). destruct x; try contradiction.
  apply give_in in Ht as (t1 & u & Ht1 & -> & _).
  destruct (raw_payloads c i raw Hc Hi Ha Hr) as (_ & _ & HP). rewrite Forall_forall in HP.
  destruct (HP fr Hfr) as [_ HP']. rewrite Hcs in HP'. apply Forall_app in HP' as [_ HP'].
  inversion HP' as [|? ? [d Hd] _]; subst. cbn [payload_l] in Hd.
  destruct Hd as (e & g & (ig & body & _ & _ & Hs & _) & _).
  eapply (Forall_seq tag_l (fun t => 0 <= tg_from t <= tg_to t /\ tg_to t < 65536)) in Hs.
  - rewrite Forall_forall in Hs. exact (Hs _ Ht1).
  - intros t' e' (dir & ig' & la & en & H1 & H2 & H3 & _). unfold u16, uint in *. cbn in *. lia.
Qed.

(** ** C23 *)
Lemma attached c i f : cfg_ok c -> is_bytes i -> addressable c i -> parse_file c i = Ok f ->
  exists raw, raw_file_l (kept_error c) raw i /\
    f_layers f = flat_map (fun fr => spec_layers (rf_chunks fr)) (rw_frames raw) /\
    f_tags f = flat_map (fun fr => spec_tags (rf_chunks fr)) (rw_frames raw) /\
    f_slices f = flat_map (fun fr => spec_slices (rf_chunks fr)) (rw_frames raw) /\
    f_user_data f = match rw_frames raw with fr :: _ => spec_sprite_data (rf_chunks fr) | [] => None end /\
    Forall2 (fun fr rf => forall x, In (Some x) (fr_cels fr) -> In x (spec_cels (rf_chunks rf)))
            (f_frames f) (rw_frames raw).
Proof.
  intros Hc Hi Ha Hp. destruct (parse_file_ok c i _ Hc Hi Ha Hp) as (raw & pal & Hr & _ & _ & -> & _).
  exists raw. split; [exact Hr|]. cbn [file_of f_layers f_tags f_slices f_user_data f_frames].
  do 4 (split; [reflexivity|]).
  generalize (layer_count raw) as n. intro n.
  induction (rw_frames raw) as [|rf rfs IH]; cbn; constructor; [|exact IH].
    cbn [fr_cels]. intros x Hx. apply in_map_iff in Hx as (k & Hk & _).
    apply cel_at_some in Hk as (a & b & -> & _). apply in_or_app. right. now left.
Qed.

(** ** C24 *)
Lemma cel_slots c i f : cfg_ok c -> is_bytes i -> addressable c i -> parse_file c i = Ok f ->
  exists raw, raw_file_l (kept_error c) raw i /\
    Forall2 (fun fr rf => fr_duration fr = rf_duration rf /\ zlen (fr_cels fr) = zlen (f_layers f) /\
               forall j, (j < length (f_layers f))%nat ->
                 nth_error (fr_cels fr) j = Some (cel_at (Z.of_nat j) (spec_cels (rf_chunks rf))))
            (f_frames f) (rw_frames raw) /\
    Forall (fun x => 0 <= cc_layer_index x < zlen (f_layers f)) (frame_cels raw).
Proof.
  intros Hc Hi Ha Hp. destruct (parse_file_ok c i _ Hc Hi Ha Hp) as (raw & pal & Hr & Hp' & _ & -> & Hcel).
  exists raw. split; [exact Hr|]. cbn [file_of f_frames f_layers]. fold (layer_count raw). split.
  - assert (G : forall rfs, Forall2 (fun fr rf => fr_duration fr = rf_duration rf /\ zlen (fr_cels fr) = layer_count raw /\
               forall j, (j < length (spec_all_layers raw))%nat ->
                 nth_error (fr_cels fr) j = Some (cel_at (Z.of_nat j) (spec_cels (rf_chunks rf))))
        (map (fun fr => {| fr_duration := rf_duration fr; fr_cels := slots (layer_count raw) (spec_cels (rf_chunks fr)) |}) rfs) rfs).
    { induction rfs as [|rf rfs IH]; cbn; constructor; [|exact IH]. cbn [fr_duration fr_cels].
      split; [reflexivity|]. split; [apply slots_length; apply zlen_nonneg|].
      intros j Hj. apply slots_nth. unfold layer_count, zlen. lia. }
    apply G.
  - destruct (raw_payloads c i raw Hc Hi Ha Hp') as (_ & _ & HP).
    assert (Hnn : Forall (fun x => 0 <= cc_layer_index x < 65536) (frame_cels raw)).
    { unfold frame_cels. eapply Forall_flat_map_of; [exact HP|]. cbn. intros rf [_ H]. eapply spec_cels_index, H. }
    rewrite Forall_forall in *. intros x Hx. specialize (Hnn x Hx). specialize (Hcel x Hx). cbn in *. lia.
Qed.

Lemma cel_index_outcome c i raw pal before x after : cfg_ok c -> is_bytes i -> addressable c i ->
  raw_file_l (kept_error c) raw i -> palette_of raw = Ok pal ->
  frame_cels raw = before ++ x :: after ->
  Forall (fun y => cc_layer_index y < layer_count raw) before ->
  (layer_count raw < cc_layer_index x -> parse_file c i = Err (NFailure ELayerIndexOutOfBounds)) /\
  (cc_layer_index x = layer_count raw -> parse_file c i = Panic PIndex).
Proof.
  intros Hc Hi Ha Hr Hp Hl Hf. rewrite (parse_file_outcome c i raw) by assumption.
  unfold spec_outcome. rewrite Hp, Hl.
  assert (G : layer_count raw <= cc_layer_index x -> find (bad_cel (layer_count raw)) (before ++ x :: after) = Some x).
  { intro H. apply find_split_inv; [|unfold bad_cel; lia]. eapply Forall_impl; [|exact Hf]. unfold bad_cel. cbn. intros. lia. }
  unfold cel_failure. split; intro H; rewrite G by lia.
  - replace (_ <? _) with true by lia. reflexivity.
  - replace (_ <? _) with false by lia. reflexivity.
Qed.

Lemma boundary_panics c : cfg_ok c -> exists i raw x, is_bytes i /\ addressable c i /\ parse_raw_file c i = Ok raw /\
  frame_cels raw = [x] /\ layer_count raw = 1 /\ cc_layer_index x = 1 /\ parse_file c i = Panic PIndex.
Proof.
  revert c. apply cfg_cases; (exists boundary_file; eexists _, _; split; [apply bytes_by_compute; reflexivity|];
    split; [vm_compute; reflexivity|]; split; [vm_compute; reflexivity|]; split; [vm_compute; reflexivity|];
    split; [vm_compute; reflexivity|]; split; vm_compute; reflexivity).
Qed.

(** ** C25 *)
Lemma palette_built c i raw : cfg_ok c -> is_bytes i -> addressable c i -> raw_file_l (kept_error c) raw i ->
  (forall f, parse_file c i = Ok f ->
     match h_color_depth (rw_header raw) with
     | Indexed => exists p ws, f_palette f = Some p /\ spec_writes (rw_frames raw) = inl ws /\ ws <> [] /\
         zlen p = 256 /\
         forall k, (k < 256)%nat ->
           nth_error p k = Some (spec_color (h_transparent_index (rw_header raw)) ws (Z.of_nat k))
     | _ => f_palette f = None
     end) /\
  (h_color_depth (rw_header raw) = Indexed ->
     (spec_writes (rw_frames raw) = inl [] -> parse_file c i = Err (NFailure (EPalette PEmpty))) /\
     (forall e, spec_writes (rw_frames raw) = inr e -> parse_file c i = Err (NFailure (EPalette e)))).
Proof.
  intros Hc Hi Ha Hr. rewrite (parse_file_outcome c i raw) by assumption. split.
  - intros f Hf. apply spec_outcome_ok in Hf as (pal & Hp & -> & _). cbn [file_of f_palette].
    unfold palette_of in Hp. destruct (h_color_depth (rw_header raw)); try congruence.
    destruct (spec_palette _ _) as [p|?] eqn:E; [|discriminate]. injection Hp as <-.
    apply spec_palette_nth in E as (ws & H1 & H2 & H3 & H4). exists p, ws. auto.
  - intro Hd. unfold spec_outcome, palette_of, spec_palette. rewrite Hd. split.
    + intros ->. reflexivity.
    + intros e ->. reflexivity.
Qed.

Lemma assigned_cases ws k :
  (forall a x b, ws = a ++ (k, x) :: b -> Forall (fun w => fst w <> k) b -> assigned ws k = x) /\
  (Forall (fun w => fst w <> k) ws -> assigned ws k = {| red := 0; green := 0; blue := 0; alpha := 0 |}).
Proof. split; [intros a x b -> H; now apply assigned_last|apply assigned_none]. Qed.

(** ** C26 *)
Lemma old_palette_total c ti chs : cfg_ok c -> 0 <= ti < 256 ->
  Forall (fun ch => Forall (fun p => 0 <= pk_entries_to_skip p <= 255 /\ zlen (pk_colors p) <= 256) (op_packets ch)) chs ->
  (forall q, process_old_palette_chunks c ti chs palette_default <> Panic q) /\
  (process_old_palette_chunks c ti chs palette_default = Err PIndexOOB <->
   exists ch, In ch chs /\ 256 < packets_end (op_packets ch)) /\
  ((forall ch, In ch chs -> packets_end (op_packets ch) <= 256) ->
   (exists ch p, In ch chs /\ In p (op_packets ch) /\ pk_colors p <> []) ->
   exists pal, process_old_palette_chunks c ti chs palette_default = Ok pal).
Proof.
  intros Hc Ht Hok. change (Forall old_ok chs) in Hok. rewrite old_palette_spec by assumption.
  pose proof (old_writes_all_none chs Hok) as Hn.
  assert (Hn' : old_writes_all chs = None <-> exists ch, In ch chs /\ 256 < packets_end (op_packets ch)).
  { rewrite Hn. reflexivity. }
  clear Hn. destruct (old_writes_all chs) as [ws|] eqn:E.
  - split; [|split].
    + intros q. unfold result. destruct ws; discriminate.
    + rewrite <- Hn'. unfold result. destruct ws; split; discriminate.
    + intros _ (ch & p & H1 & H2 & H3). destruct ws as [|w ws]; [|cbn [result]; eauto]. exfalso.
      clear Hn' Hok. induction chs as [|ch' chs IH]; [destruct H1|]. cbn [old_writes_all] in E.
      destruct (old_writes 0 (op_packets ch')) as [a|] eqn:Ea; [|discriminate].
      destruct (old_writes_all chs) as [b|]; [|discriminate]. injection E as E. apply app_eq_nil in E as [-> ->].
      destruct H1 as [<-|H1]; [|now apply IH].
      revert Ea. generalize 0. clear IH. induction (op_packets ch') as [|p' ps IH]; intros z Ea; [destruct H2|].
      cbn [old_writes] in Ea. destruct (256 <? _); [discriminate|]. destruct (old_writes _ ps) as [w|] eqn:Ew; [|discriminate].
      injection Ea as Ea. apply app_eq_nil in Ea as [Ep ->].
      destruct H2 as [<-|H2]; [|eapply IH; eassumption].
      destruct (pk_colors p'); [contradiction|discriminate].
  - split; [|split].
    + intros q. discriminate.
    + rewrite <- Hn'. tauto.
    + intros H _. destruct (proj1 Hn' eq_refl) as (ch & H1 & H2). specialize (H ch H1). lia.
Qed.

(** ** C27 *)
Lemma image_cels_in_file fs key im : In (key, im) (image_cels fs) ->
  exists k fr x, key = (Z.of_nat k, cc_layer_index x) /\ nth_error fs k = Some fr /\ In x (filled fr) /\
    cc_content x = CImage im.
Proof.
  intro H. apply in_flat_map in H as ([k x] & Hin & Hx).
  apply in_flat_map in Hin as ([k' fr] & Hfr & Hin). apply in_map_iff in Hin as (x' & [= -> ->] & Hin).
  apply numbered_in in Hfr as [H0 Hfr]. rewrite Z.sub_0_r in Hfr.
  destruct (cc_content x) eqn:Ec; try contradiction. destruct Hx as [[= <- <-]|[]].
  exists (Z.to_nat k), fr, x. rewrite Z2Nat.id by lia. auto.
Qed.

Lemma sorted_app {A} (R : A -> A -> Prop) a b : StronglySorted R a -> StronglySorted R b ->
  (forall x y, In x a -> In y b -> R x y) -> StronglySorted R (a ++ b).
Proof.
  induction 1 as [|x a H IH Hx]; intros Hb Hd; cbn; [exact Hb|]. constructor.
  - apply IH; [exact Hb|]. intros y z Hy Hz. apply Hd; [now right|exact Hz].
  - apply Forall_app. split; [exact Hx|]. apply Forall_forall. intros y Hy. apply Hd; [now left|exact Hy].
Qed.

Lemma filled_sorted l : forall n, (forall j x, nth_error l j = Some (Some x) -> cc_layer_index x = n + Z.of_nat j) ->
  StronglySorted Z.lt (map cc_layer_index (flat_map (fun o => match o with Some x => [x] | None => [] end) l)).
Proof.
  induction l as [|o l IH]; intros n H; [constructor|].
  assert (H' : forall j x, nth_error l j = Some (Some x) -> cc_layer_index x = n + 1 + Z.of_nat j).
  { intros j x Hj. rewrite (H (S j) x Hj). lia. }
  destruct o as [x|]; cbn [flat_map app map]; [|now apply (IH (n + 1))].
  constructor; [now apply (IH (n + 1))|]. destruct (filled_keys l (n + 1) H') as [_ F].
  eapply Forall_impl; [|exact F]. pose proof (H 0%nat x eq_refl). cbn in *. intros. lia.
Qed.

Lemma cels_sorted fs : Forall wf_frame fs -> forall k0,
  StronglySorted before (map cel_key (flat_map (fun '(k, fr) => map (fun x => (k, x)) (filled fr)) (numbered k0 fs))).
Proof.
  induction 1 as [|fr fs Hw H IH]; intro k0; [constructor|]. cbn [numbered flat_map]. rewrite map_app.
  destruct (file_keys fs H (k0 + 1)) as [_ I2].
  assert (E : map cel_key (map (fun x => (k0, x)) (filled fr)) = map (fun l => (k0, l)) (map cc_layer_index (filled fr))).
  { rewrite !map_map. reflexivity. }
  rewrite E. apply sorted_app.
  - pose proof (filled_sorted (fr_cels fr) 0) as F. change (flat_map _ (fr_cels fr)) with (filled fr) in F.
    specialize (F (fun j x Hj => Hw j x Hj)).
    clear E. induction F as [|l ls F IHF Hl]; cbn; constructor; [exact IHF|].
    apply Forall_map. eapply Forall_impl; [|exact Hl]. intros a Hla. right. cbn. auto.
  - apply IH.
  - intros x y Hx Hy. rewrite Forall_forall in I2. apply I2 in Hy. apply in_map_iff in Hx as (l & <- & _).
    left. cbn. lia.
Qed.

Lemma images_sorted fs : Forall wf_frame fs -> StronglySorted before (map fst (image_cels fs)).
Proof.
  intro H. pose proof (cels_sorted fs H 0) as N. unfold image_cels, file_cels.
  set (l := flat_map _ (numbered 0 fs)) in *. clearbody l. clear H.
  induction l as [|[k x] l IH]; cbn [flat_map map] in *; [constructor|].
  inversion N as [|? ? N1 N2]; subst. destruct (cc_content x); try (now apply IH). cbn [app map fst].
  constructor; [now apply IH|]. apply Forall_forall. intros key Hin.
  apply in_map_iff in Hin as ([key' im'] & <- & Hin).
  apply in_flat_map in Hin as ([k' x'] & Hin & Hin'). destruct (cc_content x'); try contradiction.
  destruct Hin' as [[= <- <-]|[]]. rewrite Forall_forall in N2. apply N2. apply in_map_iff.
  exists (k', x'). auto.
Qed.

Lemma filled_slot fr x j : wf_frame fr -> In x (filled fr) -> cc_layer_index x = Z.of_nat j ->
  nth_error (fr_cels fr) j = Some (Some x).
Proof.
  intros Hw Hx Hj. apply in_flat_map in Hx as (o & Ho & Hx). destruct o as [x'|]; [|destruct Hx].
  destruct Hx as [->|[]]. apply In_nth_error in Ho as [j' Hj']. pose proof (Hw j' x Hj') as E.
  replace j with j' by lia. exact Hj'.
Qed.

Lemma images_collected c i s : cfg_ok c -> is_bytes i -> addressable c i -> load c i = Ok s ->
  exists keys, StronglySorted before (map fst keys) /\
    af_images s = map snd keys /\ api_image_count s = zlen keys /\
    forall k l im, In ((Z.of_nat k, Z.of_nat l), im) keys <->
      exists fr x, nth_error (f_frames (af_file s)) k = Some fr /\ nth_error (fr_cels fr) l = Some (Some x) /\
        cc_content x = CImage im.
Proof.
  intros Hc Hi Ha H. pose proof (loaded_parse c i s H) as Hp. pose proof (parsed_wf c i _ Hc Hi Ha Hp) as W.
  exists (image_cels (f_frames (af_file s))). split; [now apply images_sorted|].
  split; [now apply (loaded_images c i)|]. split.
  - unfold api_image_count. rewrite (loaded_images c i s H). unfold zlen. now rewrite map_length.
  - intros k l im. split.
    + intro Hin. apply image_cels_in_file in Hin as (k' & fr & x & E & Hfr & Hx & Ex). injection E as E1 E2.
      apply Nat2Z.inj in E1. subst k'. exists fr, x. split; [exact Hfr|]. split; [|exact Ex].
      rewrite Forall_forall in W. apply filled_slot; [apply W; eapply nth_error_In, Hfr|exact Hx|auto].
    + intros (fr & x & Hfr & Hx & Ex). unfold image_cels. apply in_flat_map. exists (Z.of_nat k, x). split.
      * unfold file_cels. apply in_flat_map. exists (Z.of_nat k, fr). split.
        -- apply numbered_in. split; [lia|]. rewrite Z.sub_0_r, Nat2Z.id. exact Hfr.
        -- apply in_map_iff. exists x. split; [reflexivity|]. apply in_flat_map. exists (Some x).
           split; [eapply nth_error_In, Hx|now left].
      * rewrite Ex. rewrite Forall_forall in W. rewrite (W fr (nth_error_In _ _ Hfr) l x Hx). now left.
Qed.

(** ** C28 *)
Lemma linked_nonneg c i f fr x p : cfg_ok c -> is_bytes i -> addressable c i -> parse_file c i = Ok f ->
  In fr (f_frames f) -> In (Some x) (fr_cels fr) -> cc_content x = CLinked p -> 0 <= p.
Proof.
  intros Hc Hi Ha Hp Hfr Hx Ex.
  destruct (parse_file_ok c i _ Hc Hi Ha Hp) as (raw & pal & _ & Hr & _ & -> & _).
  cbn [file_of f_frames] in Hfr. apply in_map_iff in Hfr as (rf & <- & Hrf). cbn [fr_cels] in Hx.
  apply in_map_iff in Hx as (k & Hk & _). apply cel_at_some in Hk as (a & b & Hk & _).
  assert (Hin : In x (spec_cels (rf_chunks rf))) by (rewrite Hk; apply in_or_app; right; now left).
  apply spec_cels_in in Hin as (x0 & r & a0 & Hcs & ->).
  destruct (raw_payloads c i raw Hc Hi Ha Hr) as (_ & _ & HP). rewrite Forall_forall in HP.
  destruct (HP rf Hrf) as [_ HP']. rewrite Hcs in HP'. apply Forall_app in HP' as [_ HP'].
  inversion HP' as [|? ? [d Hd] _]; subst. destruct Hd as (ty & ig & body & _ & _ & _ & _ & _ & _ & _ & Hct & _).
  change (cc_content x0 = CLinked p) in Ex. rewrite Ex in Hct. destruct Hct as (_ & Hu & _). unfold u16, uint in Hu. lia.
Qed.

Lemma build_fails c i f : cfg_ok c -> is_bytes i -> addressable c i -> parse_file c i = Ok f ->
  (exists s, load c i = Ok s) <->
  forall k fr l x, nth_error (f_frames f) k = Some fr -> nth_error (fr_cels fr) l = Some (Some x) ->
    match cc_content x with
    | CImage _ => True
    | CLinked p => exists fr' x' im, nth_error (f_frames f) (Z.to_nat p) = Some fr' /\
        nth_error (fr_cels fr') l = Some (Some x') /\ cc_content x' = CImage im
    | _ => False
    end.
Proof.
  intros Hc Hi Ha Hp. unfold load. rewrite Hp. cbn [map_err bind].
  pose proof (parsed_wf c i f Hc Hi Ha Hp) as W. rewrite Forall_forall in W.
  pose proof (build_sprite_outcome f) as HB.
  assert (HN : (exists s, build_sprite f = Ok s) <-> problems (f_frames f) = []).
  { destruct (problems (f_frames f)); [tauto|]. rewrite HB. split; [intros [? ?]|]; discriminate. }
  rewrite HN. clear HN HB. unfold problems.
  assert (HE : forall A B (g : A -> list B) l, flat_map g l = [] <-> forall a, In a l -> g a = []).
  { clear. intros A B g l. induction l as [|a l IH]; cbn; [split; [intros _ a []|reflexivity]|].
    split.
    - intro H. apply app_eq_nil in H as [H1 H2]. intros a' [<-|Ha']; [exact H1|]. now apply IH.
    - intro H. rewrite (H a) by now left. cbn. apply IH. auto. }
  rewrite HE. clear HE. split.
  - intros H k fr l x Hfr Hx.
    assert (Hin : In (Z.of_nat k, x) (file_cels (f_frames f))).
    { apply in_flat_map. exists (Z.of_nat k, fr). split.
      - apply numbered_in. split; [lia|]. rewrite Z.sub_0_r, Nat2Z.id. exact Hfr.
      - apply in_map_iff. exists x. split; [reflexivity|]. apply in_flat_map. exists (Some x).
        split; [eapply nth_error_In, Hx|now left]. }
    specialize (H _ Hin). unfold cel_problem in H.
    destruct (cc_content x) as [im|p|? ? ? ? ? ? ? ?|? ?] eqn:Ex; try discriminate; [exact I|].
    destruct (existsb _ _) eqn:Eb; [|discriminate]. apply (existsb_key _ (p, cc_layer_index x)) in Eb as (im & Hk).
    apply image_cels_in_file in Hk as (k' & fr' & x' & E & Hfr' & Hx' & Ex'). injection E as -> El.
    rewrite Nat2Z.id. exists fr', x', im. split; [exact Hfr'|]. split; [|exact Ex'].
    apply filled_slot; [apply W; eapply nth_error_In, Hfr'|exact Hx'|].
    rewrite <- El. apply (W fr); [eapply nth_error_In, Hfr|exact Hx].
  - intros H [k x] Hin. apply in_flat_map in Hin as ([k' fr] & Hfr & Hin). apply in_map_iff in Hin as (x' & [= -> ->] & Hin).
    apply numbered_in in Hfr as [H0 Hfr]. rewrite Z.sub_0_r in Hfr.
    assert (Hl : exists l, nth_error (fr_cels fr) l = Some (Some x) /\ cc_layer_index x = Z.of_nat l).
    { apply in_flat_map in Hin as (o & Ho & Hx). destruct o as [x'|]; [|destruct Hx]. destruct Hx as [->|[]].
      apply In_nth_error in Ho as [l Hl]. exists l. split; [exact Hl|]. apply (W fr); [eapply nth_error_In, Hfr|exact Hl]. }
    destruct Hl as (l & Hl & El). specialize (H _ _ _ _ Hfr Hl). unfold cel_problem.
    destruct (cc_content x) as [im|p|? ? ? ? ? ? ? ?|? ?] eqn:Ex; try contradiction; [reflexivity|].
    destruct H as (fr' & x' & im & Hfr' & Hx' & Ex').
    replace (existsb _ _) with true; [reflexivity|]. symmetry. apply (existsb_key _ (p, cc_layer_index x)).
    exists im. apply in_flat_map. exists (p, x'). split.
    + apply in_flat_map. exists (p, fr'). split.
      * apply numbered_in. rewrite Z.sub_0_r. split; [|exact Hfr'].
        eapply (linked_nonneg c i f); [exact Hc|exact Hi|exact Ha|exact Hp|eapply nth_error_In, Hfr|eapply nth_error_In, Hl|exact Ex].
      * apply in_map_iff. exists x'. split; [reflexivity|]. apply in_flat_map. exists (Some x'). split; [eapply nth_error_In, Hx'|now left].
    + rewrite Ex'. rewrite (W fr' (nth_error_In _ _ Hfr') l x' Hx'), El. now left.
Qed.

Lemma cels_shown c i s k sf : cfg_ok c -> is_bytes i -> addressable c i -> load c i = Ok s ->
  nth_error (api_frames s) k = Some sf ->
  exists fr, nth_error (f_frames (af_file s)) k = Some fr /\
    Forall2 (fun x fc => fc_origin fc = (cc_x x, cc_y x) /\ fc_layer_index fc = cc_layer_index x) (filled fr) (sf_cels sf) /\
    forall fc, In fc (sf_cels sf) ->
      0 <= fc_image_index fc < api_image_count s /\
      exists im, nth_error (af_images s) (Z.to_nat (fc_image_index fc)) = Some im /\
        fc_size fc = (im_width im, im_height im).
Proof.
  intros Hc Hi Ha H Hk. destruct (loaded_frame c i s H k sf Hk) as (fr & Hfr & _ & _ & HF).
  exists fr. split; [exact Hfr|]. split.
  - clear Hfr Hk. induction HF as [|x fc xs fcs Hx HF IH]; constructor; [|exact IH]. destruct Hx as (H1 & H2 & _). auto.
  - intros fc Hfc. apply (cel_valid c i s H sf fc); [eapply nth_error_In, Hk|exact Hfc].
Qed.

(** ** C29 *)
Definition shifted_file : bytes :=
  hdr 1 32 1 1 ++ frm [layer_ch 1 2 0 255 [116]; layer_ch 1 0 0 255 [97]; layer_ch 1 0 0 255 [98];
                       raw_cel_ch 1 0 0 255 1 1 [1; 2; 3; 4]; raw_cel_ch 2 0 0 255 1 1 [5; 6; 7; 8]].
Lemma layers_shifted c : cfg_ok c -> exists i s sf fc1 fc2, is_bytes i /\ addressable c i /\ load c i = Ok s /\
  api_frames s = [sf] /\ sf_cels sf = [fc1; fc2] /\
  fc_layer_index fc1 = 1 /\
  option_map lc_name (nth_error (f_layers (af_file s)) 1) = Some [97] /\
  option_map ly_name (nth_error (api_layers s) 1) = Some [98] /\
  fc_layer_index fc2 = 2 /\ nth_error (api_layers s) 2 = None.
Proof.
  revert c. apply cfg_cases; (exists shifted_file; do 4 eexists; split; [apply bytes_by_compute; reflexivity|];
    split; [vm_compute; reflexivity|]; split; [vm_compute; reflexivity|]; repeat split).
Qed.

Lemma layers_indexed c i s : cfg_ok c -> is_bytes i -> addressable c i -> load c i = Ok s ->
  Forall (fun l => lc_layer_type l = LNormal \/ lc_layer_type l = LGroup) (f_layers (af_file s)) ->
  forall sf fc, In sf (api_frames s) -> In fc (sf_cels sf) ->
  0 <= fc_layer_index fc /\
  exists l ly, nth_error (f_layers (af_file s)) (Z.to_nat (fc_layer_index fc)) = Some l /\
    nth_error (api_layers s) (Z.to_nat (fc_layer_index fc)) = Some ly /\ ly_name ly = lc_name l /\
    ly_opacity ly = lc_opacity l /\ ly_blend_mode ly = lc_blend_mode l /\ ly_layer_type ly = lc_layer_type l.
Proof.
  intros Hc Hi Ha H HL sf fc Hsf Hfc. pose proof (cel_layer c i s Hc Hi Ha H sf fc Hsf Hfc) as [H0 H1].
  split; [exact H0|]. unfold api_layers. rewrite (layers_all_kept c i s H HL).
  destruct (nth_error (f_layers (af_file s)) (Z.to_nat (fc_layer_index fc))) as [l|] eqn:E.
  - exists l, (build_layer l). rewrite nth_error_map, E. repeat split.
  - apply nth_error_None in E. unfold zlen in H1. lia.
Qed.

(** ** C30 *)
Lemma visible_bit f : contains f LF_VISIBLE = Z.testbit f 0.
Proof.
  unfold contains, LF_VISIBLE. rewrite Z.land_comm, (Z.land_comm 1 f). change 1 with (Z.ones 1).
  rewrite Z.land_ones by lia. change (2 ^ 1) with 2. rewrite Zmod_odd, Z.bit0_odd. now destruct (Z.odd f).
Qed.

Lemma metadata_kept c i s : cfg_ok c -> is_bytes i -> addressable c i -> load c i = Ok s ->
  api_size s = (h_width (f_header (af_file s)), h_height (f_header (af_file s))) /\
  map sf_duration (api_frames s) = map fr_duration (f_frames (af_file s)) /\
  api_slices s = f_slices (af_file s) /\
  Forall2 (fun t g => stag_name g = tg_name t /\ stag_range g = (tg_from t, tg_to t) /\
             stag_direction g = tg_animation_direction t /\
             (tg_animation_repeat t = 0 -> stag_repeat g = None) /\
             (tg_animation_repeat t <> 0 -> stag_repeat g = Some (tg_animation_repeat t)))
          (f_tags (af_file s)) (api_tags s) /\
  Forall2 (fun l y => ly_name y = lc_name l /\ ly_opacity y = lc_opacity l /\ ly_blend_mode y = lc_blend_mode l /\
             ly_visible y = Z.testbit (lc_flags l) 0 /\ ly_layer_type y = lc_layer_type l)
          (filter (fun l => match lc_layer_type l with LNormal | LGroup => true | _ => false end) (f_layers (af_file s)))
          (api_layers s).
Proof.
  intros Hc Hi Ha H. pose proof (loaded_parse c i s H) as Hp.
  destruct (build_sprite_ok _ _ (loaded_build c i s H)) as (_ & El & Et & _ & HF).
  split; [reflexivity|]. split.
  { unfold api_frames. revert HF. generalize (shows (f_frames (af_file s))) as R, (0, 0) as o.
    generalize (f_frames (af_file s)) as fs, (af_frames s) as sfs, 0 as k.
    clear. induction fs as [|fr fs IH]; intros sfs k R o HF; cbn in HF;
      inversion HF as [|? sf ? sfs' [Hd _] HF']; subst; cbn; [reflexivity|].
    f_equal; [exact Hd|]. eapply IH, HF'. }
  split; [reflexivity|]. split.
  - unfold api_tags. rewrite Et.
    assert (HT : Forall (fun t => 0 <= tg_animation_repeat t) (f_tags (af_file s))).
    { destruct (parse_file_ok c i _ Hc Hi Ha Hp) as (raw & pal & _ & Hr & _ & -> & _). cbn [file_of f_tags].
      apply Forall_forall. intros t Ht. apply in_flat_map in Ht as (fr & Hfr & Ht).
      apply suffixes_flat_in in Ht as (x & r & a & Hcs & Ht). destruct x; try contradiction.
      apply give_in in Ht as (t1 & u & Ht1 & -> & _).
      destruct (raw_payloads c i raw Hc Hi Ha Hr) as (_ & _ & HP). rewrite Forall_forall in HP.
      destruct (HP fr Hfr) as [_ HP']. rewrite Hcs in HP'. apply Forall_app in HP' as [_ HP'].
      inversion HP' as [|? ? [d Hd] _]; subst. cbn [payload_l] in Hd.
      destruct Hd as (e & g & (ig & body & _ & _ & Hs & _) & _).
      eapply (Forall_seq tag_l (fun t => 0 <= tg_animation_repeat t)) in Hs.
      - rewrite Forall_forall in Hs. exact (Hs _ Ht1).
      - intros t' e' (dir & ig' & la & en & H1 & H2 & H3 & H4 & H5 & H6 & _). unfold u16, uint in *. cbn in *. lia. }
    clear Et HF. induction HT as [|t ts Ht HT IH]; cbn [map]; constructor; [|exact IH].
    cbn. repeat split; intro Hz; destruct (Z.ltb_spec 0 (tg_animation_repeat t)); try reflexivity; lia.
  - unfold api_layers. rewrite El. unfold build_layers. rewrite (filter_ext _ keep_layer).
    + induction (filter keep_layer (f_layers (af_file s))) as [|l ls IH]; cbn [map]; constructor; [|exact IH].
      unfold build_layer. cbn. repeat split. apply visible_bit.
    + intro l. unfold keep_layer. destruct (lc_layer_type l); reflexivity.
Qed.
