(** Consequences for loaded files (C22, C27-C30). *)
From Verif.Model Require Import Loader.
From Verif.Spec Require Import Bytes Format FileSpec Slices LoaderSpec.
From Verif.Proofs Require Import ParseLib FileFacts PaletteFacts FileProps LoaderFacts.

(** ** Keys of image cels are unique in parsed files *)
Definition wf_frame (fr : frame) : Prop :=
  forall j x, nth_error (fr_cels fr) j = Some (Some x) -> cc_layer_index x = Z.of_nat j.

Lemma nodup_app {A} (a b : list A) : NoDup a -> NoDup b -> (forall x, In x a -> ~ In x b) -> NoDup (a ++ b).
Proof.
  induction 1 as [|x a Hx H IH]; intros Hb Hd; cbn; [exact Hb|]. constructor.
  - intro Hin. apply in_app_iff in Hin as [Hin|Hin]; [contradiction|]. apply (Hd x); [now left|exact Hin].
  - apply IH; [exact Hb|]. intros y Hy. apply Hd. now right.
Qed.

Lemma nodup_map {A B} (g : A -> B) l : (forall a b, g a = g b -> a = b) -> NoDup l -> NoDup (map g l).
Proof.
  intro Hg. induction 1 as [|x l Hx H IH]; cbn; constructor; [|exact IH].
  intro Hin. apply in_map_iff in Hin as (y & E & Hy). apply Hg in E as ->. contradiction.
Qed.

Lemma filled_keys l : forall n, (forall j x, nth_error l j = Some (Some x) -> cc_layer_index x = n + Z.of_nat j) ->
  NoDup (map cc_layer_index (flat_map (fun o => match o with Some x => [x] | None => [] end) l)) /\
  Forall (fun k => n <= k) (map cc_layer_index (flat_map (fun o => match o with Some x => [x] | None => [] end) l)).
Proof.
  induction l as [|o l IH]; intros n H; [split; constructor|].
  destruct (IH (n + 1)) as [H1 H2].
  { intros j x Hj. rewrite (H (S j) x Hj). lia. }
  destruct o as [x|]; cbn [flat_map app map].
  - pose proof (H 0%nat x eq_refl) as Hx. cbn in Hx. split.
    + constructor; [|exact H1]. intro Hin. rewrite Forall_forall in H2. apply H2 in Hin. lia.
    + constructor; [lia|]. eapply Forall_impl; [|exact H2]. cbn. intros. lia.
  - split; [exact H1|]. eapply Forall_impl; [|exact H2]. cbn. intros. lia.
Qed.

Definition cel_key (kx : Z * cel_chunk) : Z * Z := (fst kx, cc_layer_index (snd kx)).

Lemma file_keys fs : Forall wf_frame fs -> forall k0,
  NoDup (map cel_key (flat_map (fun '(k, fr) => map (fun x => (k, x)) (filled fr)) (numbered k0 fs))) /\
  Forall (fun key => k0 <= fst key)
    (map cel_key (flat_map (fun '(k, fr) => map (fun x => (k, x)) (filled fr)) (numbered k0 fs))).
Proof.
  induction 1 as [|fr fs Hw H IH]; intro k0; [split; constructor|]. cbn [numbered flat_map].
  destruct (IH (k0 + 1)) as [I1 I2]. rewrite map_app.
  assert (E : map cel_key (map (fun x => (k0, x)) (filled fr)) = map (fun l => (k0, l)) (map cc_layer_index (filled fr))).
  { rewrite !map_map. reflexivity. }
  rewrite E. destruct (filled_keys (fr_cels fr) 0) as [F1 F2].
  { intros j x Hj. rewrite (Hw j x Hj). lia. }
  change (flat_map _ (fr_cels fr)) with (filled fr) in F1, F2. split.
  - apply nodup_app.
    + apply nodup_map; [intros a b [= ->]; reflexivity|exact F1].
    + exact I1.
    + intros key Hin Hin'. rewrite Forall_forall in I2. apply I2 in Hin'.
      apply in_map_iff in Hin as (l & <- & _). cbn in Hin'. lia.
  - apply Forall_app. split.
    + apply Forall_forall. intros key Hin. apply in_map_iff in Hin as (l & <- & _). cbn. lia.
    + eapply Forall_impl; [|exact I2]. cbn. intros. lia.
Qed.

Lemma image_keys fs : Forall wf_frame fs -> NoDup (map fst (image_cels fs)).
Proof.
  intro H. destruct (file_keys fs H 0) as [N _]. unfold image_cels. unfold file_cels.
  set (l := flat_map _ (numbered 0 fs)) in *. clearbody l. clear H.
  induction l as [|[k x] l IH]; cbn [flat_map map] in *; [constructor|].
  inversion N as [|? ? N1 N2]; subst. destruct (cc_content x); try (now apply IH). cbn [app map fst].
  constructor; [|now apply IH]. intro Hin. apply N1. apply in_map_iff in Hin as ([key im'] & Hk & Hin).
  apply in_flat_map in Hin as ([k' x'] & Hin & Hin'). destruct (cc_content x'); try contradiction.
  destruct Hin' as [[= <- <-]|[]]. cbn in Hk. apply in_map_iff. exists (k', x'). split; [exact Hk|exact Hin].
Qed.

Lemma parsed_wf c i f : cfg_ok c -> is_bytes i -> addressable c i -> parse_file c i = Ok f ->
  Forall wf_frame (f_frames f).
Proof.
  intros Hc Hi Ha H. apply Forall_forall. intros fr Hfr j x Hj. eapply slots_index; eassumption.
Qed.

(** ** The j-th frame *)
Lemma Forall2_nth {A B} (R : A -> B -> Prop) l l' j a :
  Forall2 R l l' -> nth_error l j = Some a -> exists b, nth_error l' j = Some b /\ R a b.
Proof.
  intro H. revert j. induction H as [|x y l l' Hxy H IH]; intros [|j] Hj; cbn in *; try discriminate.
  - injection Hj as <-. eauto.
  - auto.
Qed.
Lemma Forall2_nth_r {A B} (R : A -> B -> Prop) l l' j b :
  Forall2 R l l' -> nth_error l' j = Some b -> exists a, nth_error l j = Some a /\ R a b.
Proof.
  intro H. revert j. induction H as [|x y l l' Hxy H IH]; intros [|j] Hj; cbn in *; try discriminate.
  - injection Hj as <-. eauto.
  - auto.
Qed.
Lemma Forall2_in {A B} (R : A -> B -> Prop) l l' a : Forall2 R l l' -> In a l -> exists b, In b l' /\ R a b.
Proof. induction 1; cbn; [tauto|]. intros [->|Hin]; eauto. destruct (IHForall2 Hin) as (b & ? & ?). eauto. Qed.
Lemma Forall2_in_r {A B} (R : A -> B -> Prop) l l' b : Forall2 R l l' -> In b l' -> exists a, In a l /\ R a b.
Proof. induction 1; cbn; [tauto|]. intros [->|Hin]; eauto. destruct (IHForall2 Hin) as (a & ? & ?). eauto. Qed.

Section Loaded.
Context (c : cfg) (i : bytes) (s : ase_file).
Context (Hc : cfg_ok c) (Hi : is_bytes i) (Ha : addressable c i) (Hload : load c i = Ok s).
Let f := af_file s.

Lemma loaded_parse : parse_file c i = Ok f.
Proof. now apply load_ok in Hload. Qed.
Lemma loaded_build : build_sprite f = Ok s.
Proof. now apply load_ok in Hload. Qed.

Lemma loaded_frame k sf : nth_error (af_frames s) k = Some sf ->
  exists fr, nth_error (f_frames f) k = Some fr /\ sf_duration sf = fr_duration fr /\ sf_origin sf = (0, 0) /\
    Forall2 (shows (f_frames f) (Z.of_nat k)) (filled fr) (sf_cels sf).
Proof.
  intro H. destruct (build_sprite_ok _ _ loaded_build) as (_ & _ & _ & _ & HF).
  destruct (Forall2_nth_r _ _ _ _ _ HF H) as ([k' fr] & Hk & H1 & H2 & H3).
  rewrite numbered_nth in Hk. destruct (nth_error (f_frames f) k) as [fr'|]; [|discriminate].
  injection Hk as <- <-. cbn [fst snd] in *. eauto 6.
Qed.

Lemma loaded_frame' k fr : nth_error (f_frames f) k = Some fr ->
  exists sf, nth_error (af_frames s) k = Some sf /\ sf_duration sf = fr_duration fr /\ sf_origin sf = (0, 0) /\
    Forall2 (shows (f_frames f) (Z.of_nat k)) (filled fr) (sf_cels sf).
Proof.
  intro H. destruct (build_sprite_ok _ _ loaded_build) as (_ & _ & _ & _ & HF).
  assert (Hn : nth_error (numbered 0 (f_frames f)) k = Some (Z.of_nat k, fr)) by (rewrite numbered_nth, H; reflexivity).
  destruct (Forall2_nth _ _ _ _ _ HF Hn) as (sf & Hk & H1 & H2 & H3). eauto 6.
Qed.

Lemma loaded_images : af_images s = map snd (image_cels (f_frames f)).
Proof. apply (build_sprite_ok _ _ loaded_build). Qed.

Lemma image_cels_in key im : In (key, im) (image_cels (f_frames f)) ->
  exists k fr x, key = (Z.of_nat k, cc_layer_index x) /\ nth_error (f_frames f) k = Some fr /\ In x (filled fr) /\
    cc_content x = CImage im.
Proof.
  intro H. apply in_flat_map in H as ([k x] & Hin & Hx).
  apply in_flat_map in Hin as ([k' fr] & Hfr & Hin). apply in_map_iff in Hin as (x' & [= -> ->] & Hin).
  apply numbered_in in Hfr as [H0 Hfr]. rewrite Z.sub_0_r in Hfr.
  destruct (cc_content x) eqn:Ec; try contradiction. destruct Hx as [[= <- <-]|[]].
  exists (Z.to_nat k), fr, x. rewrite Z2Nat.id by lia. auto.
Qed.

(** Every cel: valid image index, matching size. *)
Lemma cel_valid sf fc : In sf (af_frames s) -> In fc (sf_cels sf) ->
  0 <= fc_image_index fc < zlen (af_images s) /\
  exists im, nth_error (af_images s) (Z.to_nat (fc_image_index fc)) = Some im /\ fc_size fc = (im_width im, im_height im).
Proof.
  intros Hsf Hfc. apply In_nth_error in Hsf as [k Hk].
  destruct (loaded_frame k sf Hk) as (fr & _ & _ & _ & HF).
  destruct (Forall2_in_r _ _ _ _ HF Hfc) as (x & _ & _ & _ & H0 & p & im & _ & Hn & Hs).
  rewrite loaded_images. assert (E := nth_images _ _ _ _ Hn). split; [|eauto].
  assert (Z.to_nat (fc_image_index fc) < length (map snd (image_cels (f_frames f))))%nat by (apply nth_error_Some; congruence).
  unfold zlen. lia.
Qed.

Lemma keys_unique j j' key im im' : nth_error (image_cels (f_frames f)) j = Some (key, im) ->
  nth_error (image_cels (f_frames f)) j' = Some (key, im') -> j = j' /\ im = im'.
Proof.
  intros H1 H2. pose proof (image_keys _ (parsed_wf c i f Hc Hi Ha loaded_parse)) as N.
  assert (j = j').
  { apply (proj1 (NoDup_nth_error (map fst (image_cels (f_frames f)))) N).
    - apply nth_error_Some. rewrite nth_error_map, H1. discriminate.
    - rewrite !nth_error_map, H1, H2. reflexivity. }
  subst j'. rewrite H1 in H2. injection H2 as ->. auto.
Qed.

(** An image cel shows its own image. *)
Lemma image_cel_own k fr sf j x im fc : nth_error (f_frames f) k = Some fr -> nth_error (af_frames s) k = Some sf ->
  nth_error (filled fr) j = Some x -> nth_error (sf_cels sf) j = Some fc -> cc_content x = CImage im ->
  nth_error (af_images s) (Z.to_nat (fc_image_index fc)) = Some im.
Proof.
  intros Hf Hs Hx Hfc Ex. destruct (loaded_frame' k fr Hf) as (sf' & Hs' & _ & _ & HF).
  rewrite Hs in Hs'. injection Hs' as <-.
  destruct (Forall2_nth _ _ _ _ _ HF Hx) as (fc' & Hfc' & _ & _ & H0 & p & im' & Hp & Hn & _).
  rewrite Hfc in Hfc'. injection Hfc' as <-. unfold source_frame in Hp. rewrite Ex in Hp. injection Hp as <-.
  assert (Hin : In ((Z.of_nat k, cc_layer_index x), im) (image_cels (f_frames f))).
  { unfold image_cels. apply in_flat_map. exists (Z.of_nat k, x). split.
    - unfold file_cels. apply in_flat_map. exists (Z.of_nat k, fr). split.
      + apply numbered_in. split; [lia|]. rewrite Z.sub_0_r, Nat2Z.id. exact Hf.
      + apply in_map_iff. exists x. split; [reflexivity|]. eapply nth_error_In, Hx.
    - rewrite Ex. now left. }
  apply In_nth_error in Hin as [j' Hj']. destruct (keys_unique _ _ _ _ _ Hn Hj') as [-> ->].
  rewrite loaded_images. eapply nth_images, Hj'.
Qed.

(** A linked cel shows the image of the image cel of its layer in the linked frame. *)
Lemma linked_cel_shares k fr sf j x p fc : nth_error (f_frames f) k = Some fr -> nth_error (af_frames s) k = Some sf ->
  nth_error (filled fr) j = Some x -> nth_error (sf_cels sf) j = Some fc -> cc_content x = CLinked p ->
  exists sf' fr' j' x' im fc', nth_error (af_frames s) (Z.to_nat p) = Some sf' /\
    nth_error (f_frames f) (Z.to_nat p) = Some fr' /\
    nth_error (filled fr') j' = Some x' /\ nth_error (sf_cels sf') j' = Some fc' /\
    cc_content x' = CImage im /\ cc_layer_index x' = cc_layer_index x /\
    fc_layer_index fc' = fc_layer_index fc /\ fc_image_index fc' = fc_image_index fc /\ fc_size fc' = fc_size fc.
Proof.
  intros Hf Hs Hx Hfc Ex. destruct (loaded_frame' k fr Hf) as (sf0 & Hs' & _ & _ & HF).
  rewrite Hs in Hs'. injection Hs' as <-.
  destruct (Forall2_nth _ _ _ _ _ HF Hx) as (fc0 & Hfc' & _ & Hl & H0 & p' & im & Hp & Hn & Hsz).
  rewrite Hfc in Hfc'. injection Hfc' as <-. unfold source_frame in Hp. rewrite Ex in Hp. injection Hp as <-.
  destruct (image_cels_in _ _ (nth_error_In _ _ Hn)) as (k' & fr' & x' & Hkey & Hfr' & Hx' & Ex').
  injection Hkey as -> Hly. rewrite Nat2Z.id.
  destruct (loaded_frame' k' fr' Hfr') as (sf' & Hsf' & _ & _ & HF').
  apply In_nth_error in Hx' as [j' Hj'].
  destruct (Forall2_nth _ _ _ _ _ HF' Hj') as (fc' & Hfc' & _ & Hl' & H0' & p' & im' & Hp' & Hn' & Hsz').
  unfold source_frame in Hp'. rewrite Ex' in Hp'. injection Hp' as <-. rewrite <- Hly in Hn'.
  destruct (keys_unique _ _ _ _ _ Hn Hn') as [E ->].
  exists sf', fr', j', x', im', fc'. repeat split; try assumption; try congruence.
  apply Z2Nat.inj in E; congruence.
Qed.

(** The layer index of a cel is an index of the layers of the file. *)
Lemma cel_layer sf fc : In sf (af_frames s) -> In fc (sf_cels sf) ->
  0 <= fc_layer_index fc < zlen (f_layers f).
Proof.
  intros Hsf Hfc. apply In_nth_error in Hsf as [k Hk].
  destruct (loaded_frame k sf Hk) as (fr & Hfr & _ & _ & HF).
  destruct (Forall2_in_r _ _ _ _ HF Hfc) as (x & Hx & _ & -> & _).
  pose proof (parse_file_ok c i f Hc Hi Ha loaded_parse) as (raw & pal & _ & _ & _ & Ef & _).
  apply in_flat_map in Hx as (o & Ho & Hx). destruct o as [x'|]; [|destruct Hx]. destruct Hx as [->|[]].
  apply In_nth_error in Ho as [j Hj].
  pose proof (parsed_wf c i f Hc Hi Ha loaded_parse) as W. rewrite Forall_forall in W.
  pose proof (W fr (nth_error_In _ _ Hfr) j x Hj) as E. rewrite E.
  assert (Hl : (j < length (fr_cels fr))%nat) by (apply nth_error_Some; congruence).
  rewrite Ef in Hfr |- *. cbn [file_of f_frames f_layers] in *.
  rewrite nth_error_map in Hfr. destruct (nth_error (rw_frames raw) k) as [rf|]; [|discriminate].
  injection Hfr as <-. cbn [fr_cels] in Hl. fold (layer_count raw).
  unfold slots in Hl. rewrite map_length, zrange_length in Hl. lia.
Qed.

Lemma layers_all_kept : Forall (fun l => lc_layer_type l = LNormal \/ lc_layer_type l = LGroup) (f_layers f) ->
  af_layers s = map build_layer (f_layers f).
Proof.
  intro H. destruct (build_sprite_ok _ _ loaded_build) as (_ & -> & _). unfold build_layers. f_equal.
  induction H as [|l ls Hl H IH]; [reflexivity|]. cbn [filter].
  unfold keep_layer at 1. destruct Hl as [-> | ->]; cbn; now rewrite IH.
Qed.

(** ** Slices *)
Lemma sprite_slices_infix x : In x (sprite_slices s) -> infix x i.
Proof.
  assert (F : forall y, In y (file_slices f) -> infix y i).
  { intros y Hy. eapply file_slices_infix; [eassumption..|apply loaded_parse|exact Hy]. }
  destruct (build_sprite_ok _ _ loaded_build) as (_ & El & Et & Eim & _).
  unfold sprite_slices. rewrite !in_app_iff. intros [H|[H|[H|H]]].
  - now apply F.
  - apply F. rewrite El in H. apply in_map_iff in H as (l & <- & H). apply in_map_iff in H as (l0 & <- & H).
    apply filter_In in H as [H _]. unfold file_slices. apply in_or_app. left. apply in_flat_map. exists l0.
    split; [exact H|]. now left.
  - apply F. rewrite Et in H. apply in_map_iff in H as (t & <- & H). apply in_map_iff in H as (t0 & <- & H).
    unfold file_slices. do 2 (apply in_or_app; right). apply in_or_app. left. apply in_flat_map. exists t0.
    split; [exact H|]. right. now left.
  - apply F. rewrite Eim in H. apply in_map_iff in H as (im & <- & H). apply in_map_iff in H as ([key im'] & <- & H).
    apply image_cels_in in H as (k & fr & x' & _ & Hfr & Hx & Ex). cbn [snd].
    unfold file_slices. apply in_or_app. right. apply in_or_app. left. apply in_flat_map. exists fr.
    split; [eapply nth_error_In, Hfr|]. apply in_flat_map in Hx as (o & Ho & Hx). apply in_flat_map. exists o.
    split; [exact Ho|]. destruct o; [|destruct Hx]. destruct Hx as [->|[]]. cbn [opt_list]. unfold cel_slices.
    rewrite Ex. apply in_or_app. left. now left.
Qed.
End Loaded.
