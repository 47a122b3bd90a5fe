(** The crate's layouts compared with the published ones. *)
From Verif.Model Require Import Loader.
From Verif.Spec Require Import Bytes Utf8Spec Format FileSpec LoaderSpec ImageSpec Size Published.
From Verif.Tests Require Import Build.
From Verif.Proofs Require Import ParseLib ChunkFacts ChunkFacts2 UserDataFacts RawFacts BinaryProps BinaryProps2
  BinaryFinal FileProps LoaderFacts LoaderProps FileFinal SizeProps ImageProps.
Local Ltac Zify.zify_post_hook ::= Z.div_mod_to_equations.

(** ** Cels *)
Lemma content_exchange ty x e : cel_content_l ty x e <->
  published_content_l ty (exchange_content x) e.
Proof. destruct x; cbn [cel_content_l published_content_l exchange_content]; tauto. Qed.

Lemma cel_exchange x e : cel_l x e <-> published_cel_l (exchange x) e.
Proof.
  unfold cel_l, published_cel_l, exchange. destruct x as [li x y o z content u]. cbn.
  setoid_rewrite content_exchange. reflexivity.
Qed.

Lemma parse_cel_exchanged i r x : is_bytes i ->
  (parse_cel_chunk i = Ok (r, x) <-> r = [] /\ published_cel_l (exchange x) i).
Proof. intro H. rewrite (parse_cel_iff i r x H), cel_exchange. reflexivity. Qed.

Lemma exchange_same x : ~ is_tilemap x -> exchange x = x.
Proof.
  unfold is_tilemap, exchange. destruct x as [li x y o z content u]. cbn.
  destruct content; tauto.
Qed.

Lemma parse_cel_published i r x : is_bytes i -> ~ is_tilemap x ->
  (parse_cel_chunk i = Ok (r, x) <-> r = [] /\ published_cel_l x i).
Proof. intros H N. rewrite (parse_cel_exchanged i r x H), (exchange_same x N). reflexivity. Qed.

(** ** Property values *)
Scheme published_value_ind' := Induction for published_value_l Sort Prop
with published_vector_ind' := Induction for published_vector_l Sort Prop
with published_nested_ind' := Induction for published_nested_l Sort Prop
with published_props_ind' := Induction for published_props_l Sort Prop
with published_values_ind' := Induction for published_values_l Sort Prop
with published_vectors_ind' := Induction for published_vectors_l Sort Prop
with published_nesteds_ind' := Induction for published_nesteds_l Sort Prop.
Combined Scheme published_ind from published_value_ind', published_vector_ind',
  published_nested_ind', published_props_ind', published_values_ind', published_vectors_ind',
  published_nesteds_ind'.

Definition fixed_len {A} (L : A -> bytes -> Prop) : Prop :=
  forall x a b, L x a -> L x b -> zlen a = zlen b.
Lemma seq_fixed {A} (L : A -> bytes -> Prop) : fixed_len L -> fixed_len (seq_l L).
Proof.
  intros HL l. induction l as [|x l IH]; intros a b Ha Hb.
  - apply seq_l_nil_inv in Ha as ->. apply seq_l_nil_inv in Hb as ->. reflexivity.
  - apply seq_l_cons_inv in Ha as (a1 & a2 & -> & Ha1 & Ha2).
    apply seq_l_cons_inv in Hb as (b1 & b2 & -> & Hb1 & Hb2).
    rewrite !zlen_app, (HL x a1 b1), (IH a2 b2); auto.
Qed.
Lemma bool_fixed : fixed_len bool_l.
Proof. intros x a b (u & _ & _ & ->) (v & _ & _ & ->). now rewrite !zlen_le. Qed.
Lemma uint_fixed n : fixed_len (uint_l n).
Proof. intros x a b (_ & ->) (_ & ->). reflexivity. Qed.
Lemma sint_fixed n : fixed_len (sint_l n).
Proof. intros x a b (_ & ->) (_ & ->). reflexivity. Qed.
Lemma string_fixed : fixed_len string_l.
Proof. intros x a b (_ & _ & ->) (_ & _ & ->). reflexivity. Qed.
Lemma point_fixed : fixed_len point_l.
Proof. intros x a b (_ & _ & ->) (_ & _ & ->). reflexivity. Qed.
Lemma size_fixed : fixed_len size_l.
Proof. intros x a b (_ & _ & ->) (_ & _ & ->). reflexivity. Qed.
Lemma rect_fixed : fixed_len rect_l.
Proof.
  intros x a b (a1 & a2 & Ha1 & Ha2 & ->) (b1 & b2 & Hb1 & Hb2 & ->).
  rewrite !zlen_app, (point_fixed _ a1 b1 Ha1 Hb1), (size_fixed _ a2 b2 Ha2 Hb2). reflexivity.
Qed.
Lemma fixed_fixed : fixed_len fixed_l.
Proof.
  intros x a b Ha Hb. hnf in Ha, Hb. decompose [and] Ha. decompose [and] Hb. now subst.
Qed.
Create HintDb fixedlen.
#[local] Hint Resolve seq_fixed bool_fixed uint_fixed sint_fixed string_fixed point_fixed size_fixed
  rect_fixed fixed_fixed : fixedlen.

Lemma plain_fixed v : plain v -> forall a b, value_l v a -> value_l v b -> zlen a = zlen b.
Proof.
  intros Hp a b Ha Hb. destruct v; try destruct Hp; inversion Ha; inversion Hb; subst;
    rewrite !zlen_app; f_equal;
    match goal with H : ?L ?x ?p, H' : ?L ?x ?q |- zlen ?p = zlen ?q =>
      refine ((_ : fixed_len L) x p q H H'); eauto with fixedlen end.
Qed.
Lemma plain_vector_fixed v : plain_vector v ->
  forall a b, vector_l v a -> vector_l v b -> zlen a = zlen b.
Proof.
  intros Hp a b Ha Hb. destruct v; try destruct Hp; inversion Ha; inversion Hb; subst;
    rewrite !zlen_app; do 2 f_equal;
    match goal with H : seq_l ?L ?x ?p, H' : seq_l ?L ?x ?q |- zlen ?p = zlen ?q =>
      refine ((_ : fixed_len (seq_l L)) x p q H H'); eauto with fixedlen end.
Qed.

Lemma plain_inner v : plain v -> inner_maps v = 0.
Proof. now destruct v. Qed.
Lemma plain_vector_inner v : plain_vector v -> inner_maps_vector v = 0.
Proof. now destruct v. Qed.

(** The crate's encoding is four bytes longer for every map inside. *)
Lemma published_longer :
  (forall v e, published_value_l v e -> forall e', value_l v e' -> zlen e' = zlen e + 4 * inner_maps v) /\
  (forall v e, published_vector_l v e -> forall e', vector_l v e' -> zlen e' = zlen e + 4 * inner_maps_vector v) /\
  (forall m e, published_nested_l m e -> forall e', map_l m e' -> zlen e' = zlen e + 4 * (1 + inner_maps_map m)) /\
  (forall l e, published_props_l l e -> forall e', props_l l e' -> zlen e' = zlen e + 4 * total inner_maps_prop l) /\
  (forall l e, published_values_l l e -> forall e', values_l l e' -> zlen e' = zlen e + 4 * total inner_maps l) /\
  (forall l e, published_vectors_l l e -> forall e', vectors_l l e' -> zlen e' = zlen e + 4 * total inner_maps_vector l) /\
  (forall l e, published_nesteds_l l e -> forall e', maps_l l e' -> zlen e' = zlen e + 4 * total (fun m => 1 + inner_maps_map m) l).
Proof.
  apply published_ind.
  - intros v e Hp H e' H'. rewrite (plain_inner v Hp), (plain_fixed v Hp e e'); auto. lia.
  - intros v e _ IH e' H'. inversion H'; subst. cbn [inner_maps]. rewrite !zlen_app, !zlen_le.
    erewrite IH by eassumption. lia.
  - intros m e _ IH e' H'. inversion H'; subst. cbn [inner_maps]. rewrite !zlen_app, !zlen_le.
    erewrite IH by eassumption. lia.
  - intros v e Hp H e' H'. rewrite (plain_vector_inner v Hp), (plain_vector_fixed v Hp e e'); auto. lia.
  - intros l e _ _ IH e' H'. inversion H'; subst. cbn [inner_maps_vector]. rewrite !zlen_app, !zlen_le.
    erewrite IH by eassumption. lia.
  - intros l e _ _ IH e' H'. inversion H'; subst. cbn [inner_maps_vector]. rewrite !zlen_app, !zlen_le.
    erewrite IH by eassumption. lia.
  - intros l e _ _ IH e' H'. inversion H'; subst. cbn [inner_maps_vector]. rewrite !zlen_app, !zlen_le.
    erewrite IH by eassumption. lia.
  - intros l e _ _ IH e' H'. inversion H'; subst. cbn [inner_maps_map]. rewrite !zlen_app, !zlen_le.
    erewrite IH by eassumption. lia.
  - intros e' H'. inversion H'; subst. reflexivity.
  - intros name v l e1 e2 e3 Hn _ IH1 _ IH2 e' H'. inversion H' as [|n' v' l' f1 f2 f3 Hn' Hv' Hl']; subst.
    rewrite total_cons, !zlen_app. cbn [inner_maps_prop].
    rewrite (string_fixed name e1 f1 Hn Hn'), (IH1 f2 Hv'), (IH2 f3 Hl'). lia.
  - intros e' H'. inversion H'; subst. reflexivity.
  - intros v l e1 e2 _ IH1 _ IH2 e' H'. inversion H' as [|v' l' f1 f2 Hv' Hl']; subst.
    rewrite total_cons, !zlen_app, (IH1 f1 Hv'), (IH2 f2 Hl'). lia.
  - intros e' H'. inversion H'; subst. reflexivity.
  - intros v l e1 e2 _ IH1 _ IH2 e' H'. inversion H' as [|v' l' f1 f2 Hv' Hl']; subst.
    rewrite total_cons, !zlen_app, (IH1 f1 Hv'), (IH2 f2 Hl'). lia.
  - intros e' H'. inversion H'; subst. reflexivity.
  - intros v l e1 e2 _ IH1 _ IH2 e' H'. inversion H' as [|v' l' f1 f2 Hv' Hl']; subst.
    rewrite total_cons, !zlen_app, (IH1 f1 Hv'), (IH2 f2 Hl'). lia.
Qed.

Lemma published_maps_longer ms e : published_maps_l ms e -> forall e', maps_l ms e' ->
  zlen e' = zlen e + 4 * nested_maps ms.
Proof.
  unfold nested_maps. induction 1 as [|id l ms e1 e2 Hid Hl Hp _ IH]; intros e' H'.
  - inversion H'; subst. reflexivity.
  - inversion H' as [|m' l' f1 f2 Hm' Hl']; subst. inversion Hm'; subst.
    destruct published_longer as (_ & _ & _ & HP & _).
    rewrite total_cons, !zlen_app, !zlen_le, (IH f2 Hl'). cbn [inner_maps_map].
    erewrite (HP l e1 Hp) by eassumption. lia.
Qed.

(** Hence a published area with a map inside is never read as what it says. *)
Lemma nested_unreadable c ms area n r rest : cfg_ok c ->
  let i := le 4 (zlen area + 8) ++ le 4 n ++ area ++ r in
  is_bytes i -> addressable c i -> published_maps_l ms area -> 0 < nested_maps ms ->
  parse_properties_maps c i <> Ok (r, inl (rest, ms)).
Proof.
  intros Hc i Hi Ha Hm Hn H. subst i.
  apply parse_properties_maps_sound in H as (e & E & H); [|assumption..].
  destruct H as (n' & area' & _ & _ & (e' & -> & _ & H) & ->).
  apply (published_maps_longer ms area Hm) in H.
  apply (f_equal zlen) in E. rewrite !zlen_app, !zlen_le in E. pose proof (zlen_nonneg rest). lia.
Qed.

(** Without maps inside there is no difference. *)
Lemma inner_nonneg :
  (forall v e, value_l v e -> 0 <= inner_maps v) /\
  (forall v e, vector_l v e -> 0 <= inner_maps_vector v) /\
  (forall m e, map_l m e -> 0 <= inner_maps_map m) /\
  (forall l e, props_l l e -> 0 <= total inner_maps_prop l) /\
  (forall l e, values_l l e -> 0 <= total inner_maps l) /\
  (forall l e, vectors_l l e -> 0 <= total inner_maps_vector l) /\
  (forall l e, maps_l l e -> 0 <= total (fun m => 1 + inner_maps_map m) l).
Proof.
  apply user_data_ind; try (intros; cbn; lia);
    intros; rewrite ?total_cons; cbn [inner_maps inner_maps_vector inner_maps_map inner_maps_prop]; lia.
Qed.

Lemma flat_published :
  (forall v e, value_l v e -> inner_maps v = 0 -> published_value_l v e) /\
  (forall v e, vector_l v e -> inner_maps_vector v = 0 -> published_vector_l v e) /\
  (forall m e, map_l m e -> 0 <= inner_maps_map m /\
     (inner_maps_map m = 0 -> match m with PropMap l id =>
        u32 id /\ u32 (zlen l) /\ exists e1, published_props_l l e1 /\ e = le 4 id ++ le 4 (zlen l) ++ e1 end)) /\
  (forall l e, props_l l e -> total inner_maps_prop l = 0 -> published_props_l l e) /\
  (forall l e, values_l l e -> total inner_maps l = 0 -> published_values_l l e) /\
  (forall l e, vectors_l l e -> total inner_maps_vector l = 0 -> published_vectors_l l e) /\
  (forall l e, maps_l l e -> total (fun m => 1 + inner_maps_map m) l = 0 -> published_nesteds_l l e).
Proof.
  destruct inner_nonneg as (N1 & N2 & N3 & N4 & N5 & N6 & N7).
  apply user_data_ind;
    try (intros; apply PV_plain; [exact I|constructor; assumption]);
    try (intros; apply PX_plain; [exact I|constructor; assumption]);
    try (constructor; fail).
  - intros v e _ IH H. apply PV_vector. now apply IH.
  - intros m e _ [IH _] H. cbn in H. lia.
  - intros l e Hl _ IH H. apply PX_mixed; [exact Hl|]. now apply IH.
  - intros l e Hl _ IH H. apply PX_vector; [exact Hl|]. now apply IH.
  - intros l e Hl _ IH H. apply PX_map; [exact Hl|]. now apply IH.
  - intros id l e Hid Hl Hp IH. cbn [inner_maps_map]. split; [eapply N4; eassumption|].
    intro H. repeat split; try apply Hid; try apply Hl. exists e. split; [now apply IH|reflexivity].
  - intros name v l e1 e2 e3 Hn Hv IH1 Hl IH2 H. rewrite total_cons in H. cbn [inner_maps_prop] in H.
    pose proof (N1 _ _ Hv). pose proof (N4 _ _ Hl). constructor; [exact Hn|apply IH1; lia|apply IH2; lia].
  - intros v l e1 e2 Hv IH1 Hl IH2 H. rewrite total_cons in H.
    pose proof (N1 _ _ Hv). pose proof (N5 _ _ Hl). constructor; [apply IH1; lia|apply IH2; lia].
  - intros v l e1 e2 Hv IH1 Hl IH2 H. rewrite total_cons in H.
    pose proof (N2 _ _ Hv). pose proof (N6 _ _ Hl). constructor; [apply IH1; lia|apply IH2; lia].
  - intros v l e1 e2 Hv IH1 Hl IH2 H. rewrite total_cons in H.
    pose proof (N3 _ _ Hv). pose proof (N7 _ _ Hl). lia.
Qed.

Lemma published_flat :
  (forall v e, published_value_l v e -> 0 <= inner_maps v /\ (inner_maps v = 0 -> value_l v e)) /\
  (forall v e, published_vector_l v e -> 0 <= inner_maps_vector v /\ (inner_maps_vector v = 0 -> vector_l v e)) /\
  (forall m e, published_nested_l m e -> 0 <= inner_maps_map m) /\
  (forall l e, published_props_l l e -> 0 <= total inner_maps_prop l /\
     (total inner_maps_prop l = 0 -> props_l l e)) /\
  (forall l e, published_values_l l e -> 0 <= total inner_maps l /\ (total inner_maps l = 0 -> values_l l e)) /\
  (forall l e, published_vectors_l l e -> 0 <= total inner_maps_vector l /\
     (total inner_maps_vector l = 0 -> vectors_l l e)) /\
  (forall l e, published_nesteds_l l e -> 0 <= total (fun m => 1 + inner_maps_map m) l /\
     (total (fun m => 1 + inner_maps_map m) l = 0 -> maps_l l e)).
Proof.
  apply published_ind.
  - intros v e Hp H. rewrite (plain_inner v Hp). split; [lia|auto].
  - intros v e _ [IH1 IH2]. cbn [inner_maps]. split; [exact IH1|]. intro H. constructor. auto.
  - intros m e _ IH. cbn [inner_maps]. split; [lia|]. lia.
  - intros v e Hp H. rewrite (plain_vector_inner v Hp). split; [lia|auto].
  - intros l e Hl _ [IH1 IH2]. cbn [inner_maps_vector]. split; [exact IH1|]. intro H. constructor; auto.
  - intros l e Hl _ [IH1 IH2]. cbn [inner_maps_vector]. split; [exact IH1|]. intro H. constructor; auto.
  - intros l e Hl _ [IH1 IH2]. cbn [inner_maps_vector]. split; [exact IH1|]. intro H. constructor; auto.
  - intros l e Hl _ [IH1 IH2]. cbn [inner_maps_map]. exact IH1.
  - split; [cbn; lia|]. constructor.
  - intros name v l e1 e2 e3 Hn _ [A1 A2] _ [B1 B2]. rewrite total_cons. cbn [inner_maps_prop].
    split; [lia|]. intro H. constructor; [exact Hn|apply A2; lia|apply B2; lia].
  - split; [cbn; lia|]. constructor.
  - intros v l e1 e2 _ [A1 A2] _ [B1 B2]. rewrite total_cons.
    split; [lia|]. intro H. constructor; [apply A2; lia|apply B2; lia].
  - split; [cbn; lia|]. constructor.
  - intros v l e1 e2 _ [A1 A2] _ [B1 B2]. rewrite total_cons.
    split; [lia|]. intro H. constructor; [apply A2; lia|apply B2; lia].
  - split; [cbn; lia|]. constructor.
  - intros v l e1 e2 _ A1 _ [B1 B2]. rewrite total_cons. split; lia.
Qed.

Lemma flat_maps ms e : nested_maps ms = 0 -> (published_maps_l ms e <-> maps_l ms e).
Proof.
  intro H. split; revert e H; unfold nested_maps.
  - intros e H P. induction P as [|id l ms e1 e2 Hid Hl Hp Hms IH]; [constructor|].
    destruct published_flat as (_ & _ & _ & F & _). destruct (F _ _ Hp) as [F1 F2].
    rewrite total_cons in H. cbn [inner_maps_map] in H.
    assert (0 <= total inner_maps_map ms).
    { clear - Hms. induction Hms as [|id l ms e1 e2 _ _ Hp _ IH]; [cbn; lia|]. rewrite total_cons. cbn [inner_maps_map].
      destruct published_flat as (_ & _ & _ & F & _). destruct (F _ _ Hp). lia. }
    constructor; [|apply IH; lia]. constructor; [assumption..|apply F2; lia].
  - induction ms as [|m ms IH]; intros e H P; [inversion P; subst; constructor|].
    inversion P as [|m' l' e1 e2 Hm Hms]; subst. rewrite total_cons in H.
    destruct flat_published as (_ & _ & F & _). destruct (F _ _ Hm) as [F1 F2].
    assert (0 <= total inner_maps_map ms).
    { clear - Hms F. revert e2 Hms. induction ms as [|m ms IH]; intros e2 Hms; [cbn; lia|].
      inversion Hms as [|m' l' f1 f2 Hm Hms']; subst. rewrite total_cons. destruct (F _ _ Hm). specialize (IH _ Hms'). lia. }
    destruct m as [l id]. destruct F2 as (Hid & Hl & e3 & Hp & ->); [lia|].
    constructor; [assumption..|]. apply IH; [lia|exact Hms].
Qed.

(** ** Header fields without effect *)
Lemma fold_out_ext {E A B} (f g : A -> B -> out E A) l :
  (forall a b, f a b = g a b) -> forall a, fold_out f l a = fold_out g l a.
Proof.
  intro H. induction l as [|b l IH]; intro a; cbn [fold_out]; [reflexivity|]. rewrite H.
  destruct (g a b); cbn [bind]; auto.
Qed.

Lemma same_load_image c inflate s s' j target :
  af_images s = af_images s' ->
  h_color_depth (f_header (af_file s)) = h_color_depth (f_header (af_file s')) ->
  f_palette (af_file s) = f_palette (af_file s') ->
  load_image c inflate s j target = load_image c inflate s' j target.
Proof. intros H1 H2 H3. unfold load_image, decode_image. now rewrite H1, H2, H3. Qed.

Lemma same_render c inflate s s' k target sel :
  af_images s = af_images s' -> af_layers s = af_layers s' -> af_frames s = af_frames s' ->
  same_picture_header (f_header (af_file s)) (f_header (af_file s')) ->
  f_palette (af_file s) = f_palette (af_file s') ->
  render_frame c inflate s k target sel = render_frame c inflate s' k target sel.
Proof.
  intros H1 H2 H3 (Hw & Hh & Hd & _) Hp. unfold render_frame. rewrite Hw, Hh, H3.
  destruct (usizec c (h_width _ * _)) as [n| |]; cbn [bind]; auto.
  destruct (usizec c (n * 4)) as [m| |]; cbn [bind]; auto.
  destruct (_ <? _); auto. destruct (get_index _ k) as [fr| |]; cbn [bind]; auto.
  apply fold_out_ext. intros a cel. unfold render_cel. rewrite Hw, Hh, H2.
  destruct (nth_error _ _); auto. destruct (_ || _); auto.
  destruct (usizec c (fst _ * _)) as [n'| |]; cbn [bind]; auto.
  destruct (usizec c (n' * 4)) as [m'| |]; cbn [bind]; auto.
  destruct (vec_zeroed c m') as [t| |]; cbn [bind]; auto.
  now rewrite (same_load_image c inflate s s' _ t H1 Hd Hp).
Qed.

Lemma header_ignored c i i' raw raw' s : cfg_ok c -> is_bytes i -> addressable c i ->
  is_bytes i' -> addressable c i' ->
  raw_file_l (kept_error c) raw i -> raw_file_l (kept_error c) raw' i' ->
  rw_frames raw = rw_frames raw' -> same_picture_header (rw_header raw) (rw_header raw') ->
  load c i = Ok s ->
  exists s', load c i' = Ok s' /\ f_header (af_file s') = rw_header raw' /\
    api_layers s' = api_layers s /\ api_frames s' = api_frames s /\ api_tags s' = api_tags s /\
    api_slices s' = api_slices s /\ api_image_count s' = api_image_count s /\
    forall inflate, (forall j target, load_image c inflate s' j target = load_image c inflate s j target) /\
      forall k target sel, render_frame c inflate s' k target sel = render_frame c inflate s k target sel.
Proof.
  intros Hc Hi Ha Hi' Ha' Hr Hr' Hf Hh H. unfold load in *.
  rewrite (parse_file_outcome c i raw) in H by assumption.
  rewrite (parse_file_outcome c i' raw') by assumption.
  destruct (spec_outcome raw) as [f|?|?] eqn:E; cbn [map_err bind] in H; try discriminate.
  apply spec_outcome_ok in E as (pal & Ep & -> & El).
  assert (Ec : frame_cels raw' = frame_cels raw) by (unfold frame_cels; now rewrite Hf).
  assert (En : spec_all_layers raw' = spec_all_layers raw) by (unfold spec_all_layers; now rewrite Hf).
  assert (Eo : spec_outcome raw' = Ok (file_of raw' pal)).
  { unfold spec_outcome. replace (palette_of raw') with (palette_of raw).
    2: { unfold palette_of. destruct Hh as (_ & _ & -> & ->). now rewrite Hf. }
    rewrite Ep, Ec. unfold layer_count. rewrite En. fold (layer_count raw).
    destruct (find _ _) as [x|] eqn:Ex; [|reflexivity].
    apply find_some in Ex as [Hx Hb]. rewrite Forall_forall in El. specialize (El x Hx).
    unfold bad_cel in Hb. lia. }
  rewrite Eo. cbn [map_err bind].
  assert (Efr : f_frames (file_of raw' pal) = f_frames (file_of raw pal)).
  { cbn. unfold layer_count. now rewrite En, Hf. }
  unfold build_sprite in *. rewrite Efr. destruct (collect_images _) as [v m].
  destruct (map_out _ _) as [frames|?|?]; cbn [bind] in *; try discriminate.
  injection H as <-. eexists. split; [reflexivity|]. split; [reflexivity|].
  assert (L : build_layers (f_layers (file_of raw' pal)) = build_layers (f_layers (file_of raw pal))) by (cbn; now rewrite En).
  split; [exact L|]. split; [reflexivity|].
  split; [cbn; now rewrite Hf|]. split; [cbn; now rewrite Hf|]. split; [reflexivity|].
  intro inflate. split.
  - intros j target. apply same_load_image; try reflexivity. cbn. destruct Hh as (_ & _ & -> & _). reflexivity.
  - intros k target sel. apply same_render; try reflexivity; [exact L|].
    destruct Hh as (Hw & Hy & Hd & Ht). repeat split; cbn; congruence.
Qed.

(** ** Palettes of type 0x0011 *)
Definition dim (x : color) : Prop := red x < 64 /\ green x < 64 /\ blue x < 64.

Lemma place_dim cols : forall k, Forall (fun x => 0 <= rgb_red x < 64 /\ 0 <= rgb_green x < 64 /\ 0 <= rgb_blue x < 64) cols ->
  Forall (fun w => dim (snd w)) (place k cols).
Proof.
  induction cols as [|x cols IH]; intros k H; cbn [place]; [constructor|]. inversion H; subst.
  constructor; [|now apply IH]. unfold dim. cbn. lia.
Qed.
Lemma old_writes_dim ps : forall k ws,
  Forall (fun p => Forall (fun x => 0 <= rgb_red x < 64 /\ 0 <= rgb_green x < 64 /\ 0 <= rgb_blue x < 64) (pk_colors p)) ps ->
  old_writes k ps = Some ws -> Forall (fun w => dim (snd w)) ws.
Proof.
  induction ps as [|p ps IH]; intros k ws H E; cbn [old_writes] in E.
  - injection E as <-. constructor.
  - destruct (256 <? _); [discriminate|]. inversion H; subst.
    destruct (old_writes _ ps) as [ws'|] eqn:E'; [|discriminate]. injection E as <-.
    apply Forall_app. split; [now apply place_dim|]. eapply IH; eassumption.
Qed.
Lemma old_writes_all_dim chs : forall ws, Forall six_bit chs -> old_writes_all chs = Some ws ->
  Forall (fun w => dim (snd w)) ws.
Proof.
  induction chs as [|ch chs IH]; intros ws H E; cbn [old_writes_all] in E.
  - injection E as <-. constructor.
  - inversion H; subst. destruct (old_writes 0 _) as [a|] eqn:Ea; [|discriminate].
    destruct (old_writes_all chs) as [b|]; [|discriminate]. injection E as <-.
    apply Forall_app. split; [eapply old_writes_dim; eassumption|now apply IH].
Qed.
Lemma assigned_dim ws k : Forall (fun w => dim (snd w)) ws -> dim (assigned ws k).
Proof.
  intro H. unfold assigned. destruct (find _ _) as [[k' x]|] eqn:E; [|unfold dim; cbn; lia].
  apply find_some in E as [E _]. rewrite <- in_rev in E. rewrite Forall_forall in H. exact (H _ E).
Qed.

Lemma six_bit_dim c i raw f p : cfg_ok c -> is_bytes i -> addressable c i ->
  raw_file_l (kept_error c) raw i -> new_palettes (rw_frames raw) = [] -> palettes_0004 (rw_frames raw) = [] ->
  Forall six_bit (palettes_0011 (rw_frames raw)) ->
  parse_file c i = Ok f -> f_palette f = Some p ->
  Forall (fun x => red x < 64 /\ green x < 64 /\ blue x < 64) p.
Proof.
  intros Hc Hi Ha Hr Hn H4 H6 Hf Hp.
  destruct (palette_built c i raw Hc Hi Ha Hr) as [H _]. specialize (H f Hf).
  destruct (h_color_depth (rw_header raw)); try congruence.
  destruct H as (p' & ws & Ep & Ew & _ & El & Hk). assert (p' = p) by congruence. subst p'.
  unfold spec_writes in Ew. rewrite Hn, H4 in Ew.
  destruct (palettes_0011 (rw_frames raw)) as [|ch chs] eqn:E; [discriminate|].
  destruct (old_writes_all (ch :: chs)) as [ws'|] eqn:E'; [|discriminate]. injection Ew as ->.
  pose proof (old_writes_all_dim _ _ H6 E') as Hd.
  apply Forall_forall. intros x Hx. apply In_nth_error in Hx as [k Hx].
  assert (Hlt : (k < 256)%nat).
  { assert (Hn0 : nth_error p k <> None) by congruence. apply nth_error_Some in Hn0. unfold zlen in El. lia. }
  rewrite (Hk k Hlt) in Hx. injection Hx as <-. pose proof (assigned_dim ws (Z.of_nat k) Hd) as D.
  unfold spec_color. destruct (_ =? _); exact D.
Qed.

(** ** Pixels of the transparent index *)
Lemma stored_fun inflate im old a b : stored inflate im old a -> stored inflate im old b -> a = b.
Proof.
  unfold stored. destruct (im_compressed im); [|congruence].
  intros (w & E & ->) (w' & E' & ->). congruence.
Qed.
Lemma transparent_pixels c i s inflate j im target r px k : cfg_ok c -> is_bytes i -> addressable c i -> load c i = Ok s ->
  inflate_ok inflate -> nth_error (af_images s) j = Some im -> sizes_fit c im -> addressable c target ->
  h_color_depth (f_header (af_file s)) = Indexed ->
  load_image c inflate s (Z.of_nat j) target = Ok r ->
  stored inflate im (repeat 0 (Z.to_nat (im_width im * im_height im))) px ->
  Z.of_nat k < im_width im * im_height im ->
  nth_error px k = Some (h_transparent_index (f_header (af_file s))) ->
  exists re g b, quad r k = Some (re, g, b, 0).
Proof.
  intros Hc Hi Ha Hl Hinf Hj Hs Ht Hd H Hpx Hk Hp.
  pose proof (load_image_pixels c i s inflate j im target r Hc Hi Ha Hl Hinf Hj Hs Ht H k Hk) as P.
  rewrite Hd in P. destruct P as (px' & pal & p & x & Hs' & Hpal & Hp' & Hp0 & Hx & Hq).
  pose proof (stored_fun _ _ _ _ _ Hs' Hpx) as ->. rewrite Hp in Hp'. injection Hp' as <-.
  pose proof (palette_size c i s Hc Hi Ha Hl pal Hpal) as H256.
  pose proof (loaded_parse c i s Hl) as Hf.
  destruct (parse_file_ok c i _ Hc Hi Ha Hf) as (raw & pal' & Hr & _ & _ & Ef & _).
  destruct (palette_built c i raw Hc Hi Ha Hr) as [P _]. specialize (P _ Hf).
  assert (Hh : f_header (af_file s) = rw_header raw) by (rewrite Ef; reflexivity).
  rewrite Hh in *. rewrite Hd in P. destruct P as (pal'' & ws & E & _ & _ & _ & P).
  assert (pal'' = pal) by congruence. subst pal''.
  set (t := h_transparent_index (rw_header raw)) in *.
  assert (Hlt : (Z.to_nat t < 256)%nat).
  { assert (Hn : nth_error pal (Z.to_nat t) <> None) by congruence. apply nth_error_Some in Hn. unfold zlen in H256. lia. }
  rewrite (P _ Hlt) in Hx. injection Hx as <-. rewrite Hq, Z2Nat.id by exact Hp0.
  unfold spec_color. rewrite Z.eqb_refl. cbn. eauto.
Qed.

(** ** Witnesses *)
(** A 1 by 1 tilemap; mask 2^31 for X flips, 2^30 for Y flips. *)
Definition flipped_tilemap : cel_chunk :=
  {| cc_layer_index := 0; cc_x := 0; cc_y := 0; cc_opacity := 255; cc_z_index := 0;
     cc_content := CTilemap 1 1 32 0x1fffffff 0x80000000 0x40000000 0x20000000 [1; 2; 3]; cc_user_data := None |}.
Definition flipped_tilemap_bytes : bytes :=
  le 2 0 ++ les 2 0 ++ les 2 0 ++ le 1 255 ++ le 2 3 ++ les 2 0 ++ repeat 0 5 ++
  (le 2 1 ++ le 2 1 ++ le 2 32 ++ le 4 0x1fffffff ++ le 4 0x80000000 ++ le 4 0x40000000 ++ le 4 0x20000000 ++
   repeat 0 10 ++ [1; 2; 3]).
Lemma tilemap_masks_exchanged : exists x i, is_bytes i /\ is_tilemap x /\ published_cel_l x i /\
  parse_cel_chunk i = Ok ([], exchange x) /\ exchange x <> x.
Proof.
  exists flipped_tilemap, flipped_tilemap_bytes.
  assert (Hp : published_cel_l flipped_tilemap flipped_tilemap_bytes).
  { exists 3, (repeat 0 5). eexists. unfold u16, u8, u32, i16, uint, sint. cbn [flipped_tilemap cc_layer_index cc_x cc_y cc_opacity cc_z_index cc_content cc_user_data].
    repeat (split; [lia|]). split; [reflexivity|]. split; [|split; reflexivity].
    cbn [published_content_l]. unfold u16, u32, uint. repeat (split; [lia|]). exists (repeat 0 10). split; reflexivity. }
  split; [apply bytes_by_compute; vm_compute; reflexivity|]. split; [exact I|]. split; [exact Hp|].
  split; [vm_compute; reflexivity|]. discriminate.
Qed.

(** The properties of the user: "a" is an empty map. *)
Definition nested_area : bytes := (le 4 0 ++ le 4 1 ++ ((le 2 1 ++ [97]) ++ (le 2 0x12 ++ (le 4 0 ++ [])) ++ [])) ++ [].
Definition nested_tree : list properties_map := [PropMap [Prop_ [97] (VPropertiesMap (PropMap [] 0))] 0].
Lemma nested_published : published_maps_l nested_tree nested_area.
Proof.
  unfold nested_tree, nested_area. apply PM_cons; [unfold u32, uint; lia|unfold u32, uint; cbn; lia| |constructor].
  apply PP_cons; [|apply PV_map, (PN []); [unfold u32, uint; cbn; lia|constructor]|constructor].
  split; [unfold u16, uint; cbn; lia|]. split; [|reflexivity].
  exists [97]. split; [repeat constructor; unfold scalar; lia|reflexivity].
Qed.

Lemma nested_kept_as_error c : cfg_ok c -> exists ms area e,
  published_maps_l ms area /\ nested_maps ms = 1 /\
  is_bytes area /\
  parse_properties_maps c (le 4 (zlen area + 8) ++ le 4 (zlen ms) ++ area) = Ok ([], inr e).
Proof.
  revert c. apply cfg_cases; (exists nested_tree, nested_area; eexists; split; [exact nested_published|];
    split; [reflexivity|]; split; [apply bytes_by_compute; vm_compute; reflexivity|]; vm_compute; reflexivity).
Qed.

(** One pixel of colour 1, white in the six bits of the palette. *)
Definition six_bit_file : bytes :=
  hdr 1 8 1 1 ++ frm [old_palette_ch 0x11 [(0, [(0, 0, 0); (63, 63, 63)])]; layer_ch 1 0 0 255 [97];
    raw_cel_ch 0 0 0 255 1 1 [1]].
Lemma six_bit_white c inflate : cfg_ok c -> exists i raw s, is_bytes i /\ addressable c i /\
  parse_raw_file c i = Ok raw /\ new_palettes (rw_frames raw) = [] /\ palettes_0004 (rw_frames raw) = [] /\
  map (fun ch => map pk_colors (op_packets ch)) (palettes_0011 (rw_frames raw)) =
    [[[{| rgb_red := 0; rgb_green := 0; rgb_blue := 0 |}; {| rgb_red := 63; rgb_green := 63; rgb_blue := 63 |}]]] /\
  widen 63 = 255 /\
  load c i = Ok s /\ map im_data (af_images s) = [[1]] /\
  load_image c inflate s 0 [9; 9; 9; 9] = Ok [63; 63; 63; 255].
Proof.
  revert c. apply cfg_cases; (exists six_bit_file; do 2 eexists; split; [apply bytes_by_compute; reflexivity|];
    split; [vm_compute; reflexivity|]; split; [vm_compute; reflexivity|]; do 4 (split; [reflexivity|]);
    split; [vm_compute; reflexivity|]; split; [reflexivity|vm_compute; reflexivity]).
Qed.

(** A header with the given flags; one opaque pixel on a layer of opacity 128. *)
Definition opacity_file (flags : Z) : bytes :=
  (le 4 0 ++ le 2 0xA5E0 ++ le 2 1 ++ le 2 1 ++ le 2 1 ++ le 2 32 ++ le 4 flags ++ le 2 100 ++
   repeat 0 8 ++ le 1 0 ++ [0; 0; 0] ++ le 2 256 ++ le 1 1 ++ le 1 1 ++ les 2 0 ++ les 2 0 ++
   le 2 16 ++ le 2 16 ++ repeat 0 84) ++
  frm [layer_ch 1 0 0 128 [97]; raw_cel_ch 0 0 0 255 1 1 [200; 200; 200; 255]].
Lemma invalid_opacity_used c inflate : cfg_ok c -> exists i s, is_bytes i /\ addressable c i /\
  load c i = Ok s /\ h_flags (f_header (af_file s)) = 0 /\ map lc_opacity (f_layers (af_file s)) = [128] /\
  render_frame c inflate s 0 [0; 0; 0; 255] SelAll = Ok [100; 100; 100; 255].
Proof.
  revert c. apply cfg_cases; (exists (opacity_file 0); eexists; split; [apply bytes_by_compute; reflexivity|];
    split; [vm_compute; reflexivity|]; split; [vm_compute; reflexivity|]; split; [reflexivity|]; split; [reflexivity|vm_compute; reflexivity]).
Qed.

(** One pixel of the transparent index 0 on a background layer. *)
Definition background_file : bytes :=
  hdr 1 8 1 1 ++ frm [old_palette_ch 4 [(0, [(10, 20, 30)])]; layer_ch 9 0 0 255 [97];
    raw_cel_ch 0 0 0 255 1 1 [0]].
Lemma background_transparent c inflate : cfg_ok c -> exists i s, is_bytes i /\ addressable c i /\
  load c i = Ok s /\ map (fun l => contains (lc_flags l) LF_BACKGROUND) (f_layers (af_file s)) = [true] /\
  h_transparent_index (f_header (af_file s)) = 0 /\ map im_data (af_images s) = [[0]] /\
  load_image c inflate s 0 [9; 9; 9; 9] = Ok [10; 20; 30; 0] /\
  render_frame c inflate s 0 [9; 9; 9; 255] SelAll = Ok [9; 9; 9; 255].
Proof.
  revert c. apply cfg_cases; (exists background_file; eexists; split; [apply bytes_by_compute; reflexivity|];
    split; [vm_compute; reflexivity|]; split; [vm_compute; reflexivity|]; split; [vm_compute; reflexivity|];
    split; [reflexivity|]; split; [reflexivity|]; split; vm_compute; reflexivity).
Qed.
