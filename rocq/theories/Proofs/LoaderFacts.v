(** [build_sprite] and [load]. *)
From Verif.Model Require Import Loader.
From Verif.Spec Require Import Bytes Format FileSpec Slices LoaderSpec.
From Verif.Proofs Require Import ParseLib FileFacts FileProps.

Lemma numbered_enumerate {A} (l : list A) : enumerate l = numbered 0 l.
Proof.
  unfold enumerate. change 0 with (Z.of_nat 0). generalize 0%nat. induction l as [|a l IH]; intro k; [reflexivity|].
  cbn [length seq map combine numbered]. rewrite IH. do 2 f_equal. lia.
Qed.

Lemma somes_filled fr : somes (fr_cels fr) = filled fr.
Proof. unfold filled. induction (fr_cels fr) as [|[x|] l IH]; cbn; congruence. Qed.

Lemma numbered_length {A} (l : list A) k : length (numbered k l) = length l.
Proof. revert k. induction l; intro k; cbn; auto. Qed.

Lemma numbered_nth {A} (l : list A) k j : nth_error (numbered k l) j = option_map (fun a => (k + Z.of_nat j, a)) (nth_error l j).
Proof.
  revert k j. induction l as [|a l IH]; intros k [|j]; cbn; try reflexivity.
  - now rewrite Z.add_0_r.
  - rewrite IH. destruct (nth_error l j); cbn; [|reflexivity]. do 2 f_equal. lia.
Qed.

Lemma numbered_in {A} (l : list A) j a k : In (j, a) (numbered k l) <-> k <= j /\ nth_error l (Z.to_nat (j - k)) = Some a.
Proof.
  split.
  - intro H. apply In_nth_error in H as (n & H). rewrite numbered_nth in H.
    destruct (nth_error l n) as [b|] eqn:E; [|discriminate]. injection H as <- <-. split; [lia|].
    replace (Z.to_nat (k + Z.of_nat n - k)) with n by lia. exact E.
  - intros [H1 H2]. apply nth_error_In with (n := Z.to_nat (j - k)). rewrite numbered_nth, H2. cbn.
    f_equal. f_equal. lia.
Qed.

Lemma numbered_app {A} (l l' : list A) k : numbered k (l ++ l') = numbered k l ++ numbered (k + zlen l) l'.
Proof.
  revert k. induction l as [|a l IH]; intro k; cbn.
  - f_equal. unfold zlen. cbn. lia.
  - rewrite IH. do 3 f_equal. unfold zlen. cbn [length]. lia.
Qed.

(** ** Collecting the images *)
Definition collected (L : list ((Z * Z) * image)) : list image * image_map :=
  (map snd L, rev (map (fun '(j, (key, _)) => (key, j)) (numbered 0 L))).

Lemma collect_cel_step L k x :
  collect_cel k (collected L) x =
  collected (L ++ match cc_content x with CImage im => [((k, cc_layer_index x), im)] | _ => [] end).
Proof.
  unfold collect_cel. destruct (cc_content x); try (now rewrite app_nil_r).
  unfold collected. rewrite map_app, numbered_app, map_app, rev_app_distr. cbn [map numbered rev app snd].
  unfold zlen. now rewrite map_length.
Qed.

Lemma collect_cels_fold xs : forall L k,
  fold_left (collect_cel k) xs (collected L) =
  collected (L ++ flat_map (fun '(k, x) => match cc_content x with CImage im => [((k, cc_layer_index x), im)] | _ => [] end)
                   (map (fun x => (k, x)) xs)).
Proof.
  induction xs as [|x xs IH]; intros L k; cbn [fold_left map flat_map].
  - now rewrite app_nil_r.
  - rewrite collect_cel_step, IH, <- app_assoc. reflexivity.
Qed.

Lemma collect_spec fs : collect_images fs = collected (image_cels fs).
Proof.
  unfold collect_images. rewrite numbered_enumerate.
  change (@nil image, @nil (Z * Z * Z)) with (collected []).
  unfold image_cels, file_cels.
  assert (G : forall ns L, fold_left collect_frame ns (collected L) =
    collected (L ++ flat_map (fun '(k, x) => match cc_content x with CImage im => [((k, cc_layer_index x), im)] | _ => [] end)
       (flat_map (fun '(k, fr) => map (fun x => (k, x)) (filled fr)) ns))).
  { induction ns as [|[k fr] ns IH]; intro L; cbn [fold_left flat_map].
    - now rewrite app_nil_r.
    - unfold collect_frame at 2. cbn [fst snd]. rewrite somes_filled, collect_cels_fold, IH, <- app_assoc, flat_map_app.
      reflexivity. }
  apply (G _ []).
Qed.

Lemma map_get_app m m' k : map_get (m ++ m') k = match map_get m k with Some v => Some v | None => map_get m' k end.
Proof. induction m as [|[k' v] m IH]; cbn; [reflexivity|]. now destruct (_ && _). Qed.

Definition get_key (L : list ((Z * Z) * image)) (key : Z * Z) : option Z := map_get (snd (collected L)) key.

Lemma get_key_snoc L key0 im key : get_key (L ++ [(key0, im)]) key =
  if (fst key0 =? fst key) && (snd key0 =? snd key) then Some (zlen L) else get_key L key.
Proof.
  unfold get_key, collected. cbn [snd]. rewrite numbered_app, map_app, rev_app_distr. cbn [numbered map rev app map_get].
  now destruct (_ && _).
Qed.

Lemma key_eqb (k k' : Z * Z) : (fst k =? fst k') && (snd k =? snd k') = true <-> k = k'.
Proof.
  destruct k as [a b], k' as [a' b']. cbn. split; intro H.
  - f_equal; lia.
  - injection H as -> ->. lia.
Qed.

Lemma get_key_some L key j : get_key L key = Some j ->
  0 <= j /\ exists im, nth_error L (Z.to_nat j) = Some (key, im).
Proof.
  induction L as [|[key0 im] L IH] using rev_ind; [discriminate|].
  rewrite get_key_snoc. destruct (_ && _) eqn:E.
  - apply key_eqb in E as ->. intros [= <-]. split; [apply zlen_nonneg|]. exists im.
    unfold zlen. rewrite Nat2Z.id, nth_error_app2, Nat.sub_diag by lia. reflexivity.
  - intro H. destruct (IH H) as (Hj & im' & H'). split; [exact Hj|]. exists im'.
    rewrite nth_error_app1; [exact H'|]. apply nth_error_Some. congruence.
Qed.

Lemma get_key_none L key : get_key L key = None <-> forall im, ~ In (key, im) L.
Proof.
  induction L as [|[key0 im] L IH] using rev_ind.
  - split; [intros _ im []|reflexivity].
  - rewrite get_key_snoc. destruct (_ && _) eqn:E.
    + apply key_eqb in E as ->. split; [discriminate|]. intro H. destruct (H im). apply in_or_app. right. now left.
    + rewrite IH. split; intros H im' Hin.
      * apply in_app_iff in Hin as [Hin|[[= -> ->]|[]]]; [now apply (H im')|].
        assert (T : (fst key =? fst key) && (snd key =? snd key) = true) by now apply key_eqb. congruence.
      * apply (H im'). apply in_or_app. now left.
Qed.

(** ** Building the frames *)
Lemma map_out_ok {E A B} (f : A -> out E B) (P : A -> B -> Prop) l bs :
  (forall a b, f a = Ok b -> P a b) -> map_out f l = Ok bs -> Forall2 P l bs.
Proof.
  intro Hf. revert bs. induction l as [|a l IH]; intros bs H; cbn [map_out] in H.
  - injection H as <-. constructor.
  - destruct (f a) as [b|?|?] eqn:E1; cbn [bind] in H; try discriminate.
    destruct (map_out f l) as [bs'|?|?] eqn:E2; cbn [bind] in H; try discriminate.
    injection H as <-. constructor; auto.
Qed.

(** The result when the only failures are [g]'s errors: [Err] of the first. *)
Lemma map_out_first {E A B} (f : A -> out E B) (g : A -> list E) l :
  (forall a, In a l -> match g a with [] => exists b, f a = Ok b | e :: _ => f a = Err e end) ->
  match flat_map g l with
  | [] => exists bs, map_out f l = Ok bs
  | e :: _ => map_out f l = Err e
  end.
Proof.
  induction l as [|a l IH]; intro H; cbn [flat_map map_out]; [eauto|].
  pose proof (H a (or_introl eq_refl)) as Ha. destruct (g a) as [|e es]; cbn [app].
  - destruct Ha as [b ->]. cbn [bind].
    specialize (IH (fun a' Ha' => H a' (or_intror Ha'))). destruct (flat_map g l) as [|e es].
    + destruct IH as [bs ->]. cbn [bind]. eauto.
    + now rewrite IH.
  - now rewrite Ha.
Qed.

Lemma existsb_key L key : existsb (fun q : Z * Z * image => (fst (fst q) =? fst key) && (snd (fst q) =? snd key)) L = true
  <-> exists im, In (key, im) L.
Proof.
  rewrite existsb_exists. split.
  - intros ([k im] & Hin & H). cbn in H. apply key_eqb in H as ->. eauto.
  - intros (im & Hin). exists (key, im). split; [exact Hin|]. now apply key_eqb.
Qed.

Lemma nth_images L j key im : nth_error L j = Some (key, im) -> nth_error (map (@snd (Z * Z) image) L) j = Some im.
Proof. intro H. now rewrite nth_error_map, H. Qed.

Lemma get_index_ok {E A} (l : list A) j a : 0 <= j -> nth_error l (Z.to_nat j) = Some a -> @get_index E A l j = Ok a.
Proof. intros H1 H2. unfold get_index. replace (0 <=? j) with true by lia. now rewrite H2. Qed.

Section Build.
Context (fs : list frame).
Let L := image_cels fs.
Let v := map (@snd (Z * Z) image) L.
Let m := snd (collected L).

Lemma build_cel_shows k x fc : build_cel v m k x = Ok fc -> shows fs k x fc.
Proof.
  unfold build_cel, cel_image_index. fold L.
  destruct (cc_content x) as [im0|frame_position|? ? ? ? ? ? ? ?|? ?] eqn:Ex; cbn [bind]; try discriminate.
  - destruct (map_get m (k, cc_layer_index x)) as [j|] eqn:Ej; cbn [bind]; [|discriminate].
    apply (get_key_some L) in Ej as (Hj & im & Hn).
    rewrite (get_index_ok v j im Hj (nth_images _ _ _ _ Hn)). cbn [bind]. intros [= <-].
    unfold shows, source_frame. cbn. rewrite Ex. repeat split; auto. exists k, im. auto.
  - destruct (map_get m (frame_position, cc_layer_index x)) as [j|] eqn:Ej; cbn [bind]; [|discriminate].
    apply (get_key_some L) in Ej as (Hj & im & Hn).
    rewrite (get_index_ok v j im Hj (nth_images _ _ _ _ Hn)). cbn [bind]. intros [= <-].
    unfold shows, source_frame. cbn. rewrite Ex. repeat split; auto. exists frame_position, im. auto.
Qed.

Lemma build_cel_outcome k x : In (k, x) (file_cels fs) ->
  match cel_problem fs (k, x) with [] => exists fc, build_cel v m k x = Ok fc | e :: _ => build_cel v m k x = Err e end.
Proof.
  intro Hin. unfold cel_problem, build_cel, cel_image_index. fold L.
  destruct (cc_content x) as [im|p|? ? ? ? ? ? ? ?|? ?] eqn:Ex; cbn [bind]; try reflexivity.
  - destruct (map_get m (k, cc_layer_index x)) as [j|] eqn:Ej; cbn [bind].
    + apply (get_key_some L) in Ej as (Hj & im' & Hn).
      rewrite (get_index_ok v j im' Hj (nth_images _ _ _ _ Hn)). cbn [bind]. eauto.
    + exfalso. apply (proj1 (get_key_none L _) Ej im). unfold L, image_cels. apply in_flat_map.
      exists (k, x). split; [exact Hin|]. rewrite Ex. now left.
  - destruct (map_get m (p, cc_layer_index x)) as [j|] eqn:Ej; cbn [bind].
    + apply (get_key_some L) in Ej as (Hj & im' & Hn).
      assert (T : existsb (fun q => (fst (fst q) =? p) && (snd (fst q) =? cc_layer_index x)) L = true).
      { apply (existsb_key L (p, cc_layer_index x)). exists im'. now apply nth_error_In in Hn. }
      rewrite T.
      rewrite (get_index_ok v j im' Hj (nth_images _ _ _ _ Hn)). cbn [bind]. eauto.
    + destruct (existsb _ L) eqn:T; [|reflexivity]. exfalso.
      apply (existsb_key L (p, cc_layer_index x)) in T as (im & Hi). exact (proj1 (get_key_none L _) Ej im Hi).
Qed.
End Build.

Lemma file_cels_alt fs : file_cels fs = flat_map (fun '(k, fr) => map (fun x => (k, x)) (filled fr)) (numbered 0 fs).
Proof. reflexivity. Qed.

Lemma map_out_map {E A B C} (f : B -> out E C) (g : A -> B) l : map_out f (map g l) = map_out (fun a => f (g a)) l.
Proof. induction l as [|a l IH]; cbn [map map_out]; [reflexivity|]. now rewrite IH. Qed.

Lemma build_sprite_outcome f :
  match problems (f_frames f) with
  | [] => exists s, build_sprite f = Ok s
  | e :: _ => build_sprite f = Err e
  end.
Proof.
  unfold build_sprite. rewrite collect_spec. unfold collected. cbv iota beta.
  set (fs := f_frames f).
  pose proof (map_out_first
    (build_frame (map snd (image_cels fs)) (rev (map (fun '(j, (key, _)) => (key, j)) (numbered 0 (image_cels fs)))))
    (fun '(k, fr) => flat_map (cel_problem fs) (map (fun x => (k, x)) (filled fr))) (numbered 0 fs)) as G.
  unfold problems, file_cels. rewrite numbered_enumerate.
  replace (flat_map (cel_problem fs) (flat_map (fun '(k, fr) => map (fun x => (k, x)) (filled fr)) (numbered 0 fs)))
    with (flat_map (fun '(k, fr) => flat_map (cel_problem fs) (map (fun x => (k, x)) (filled fr))) (numbered 0 fs)).
  - assert (H : forall a, In a (numbered 0 fs) ->
       match (let '(k, fr) := a in flat_map (cel_problem fs) (map (fun x => (k, x)) (filled fr))) with
       | [] => exists b, build_frame (map snd (image_cels fs)) (rev (map (fun '(j, (key, _)) => (key, j)) (numbered 0 (image_cels fs)))) a = Ok b
       | e :: _ => build_frame (map snd (image_cels fs)) (rev (map (fun '(j, (key, _)) => (key, j)) (numbered 0 (image_cels fs)))) a = Err e
       end).
    { intros [k fr] Ha. unfold build_frame. cbn [fst snd]. rewrite somes_filled.
      assert (H := map_out_first (fun q => build_cel (map snd (image_cels fs)) (rev (map (fun '(j, (key, _)) => (key, j)) (numbered 0 (image_cels fs)))) (fst q) (snd q))
         (cel_problem fs) (map (fun x => (k, x)) (filled fr))).
      rewrite map_out_map in H. cbn [fst snd] in H.
      lapply H.
      - clear H. destruct (flat_map (cel_problem fs) (map (fun x => (k, x)) (filled fr))) as [|e es].
        + intros [bs Hbs]. rewrite (Hbs : map_out (build_cel _ _ k) _ = _). cbn [bind]. eauto.
        + intro Hbs. now rewrite (Hbs : map_out (build_cel _ _ k) _ = _).
      - intros [k' x] Hx. cbn [fst snd]. apply (build_cel_outcome fs k' x). unfold file_cels. apply in_flat_map.
        exists (k, fr). split; [exact Ha|exact Hx]. }
    specialize (G H). destruct (flat_map _ (numbered 0 fs)) as [|e es].
    + destruct G as [bs ->]. cbn [bind]. eauto.
    + now rewrite G.
  - clear. induction (numbered 0 fs) as [|[k fr] l IH]; cbn [flat_map]; [reflexivity|].
    now rewrite flat_map_app, IH.
Qed.

Lemma build_sprite_ok f s : build_sprite f = Ok s ->
  af_file s = f /\ af_layers s = build_layers (f_layers f) /\ af_tags s = map build_tag (f_tags f) /\
  af_images s = map snd (image_cels (f_frames f)) /\
  Forall2 (fun kfr sf => sf_duration sf = fr_duration (snd kfr) /\ sf_origin sf = (0, 0) /\
                         Forall2 (shows (f_frames f) (fst kfr)) (filled (snd kfr)) (sf_cels sf))
          (numbered 0 (f_frames f)) (af_frames s).
Proof.
  unfold build_sprite. rewrite collect_spec. unfold collected. cbv iota beta.
  destruct (map_out _ _) as [frames|?|?] eqn:E; cbn [bind]; try discriminate. intros [= <-]. cbn.
  repeat split. rewrite numbered_enumerate in E. revert E. apply map_out_ok.
  intros [k fr] sf. unfold build_frame. cbn [fst snd]. rewrite somes_filled.
  destruct (map_out _ (filled fr)) as [cels|?|?] eqn:E; cbn [bind]; try discriminate. intros [= <-]. cbn.
  repeat split. revert E. apply map_out_ok. intros x fc. apply (build_cel_shows (f_frames f)).
Qed.

Lemma build_sprite_panic f q : build_sprite f <> Panic q.
Proof.
  pose proof (build_sprite_outcome f) as H. destruct (problems (f_frames f)).
  - destruct H as [s ->]. discriminate.
  - rewrite H. discriminate.
Qed.

Lemma load_panic c i q : load c i = Panic q <-> parse_file c i = Panic q.
Proof.
  unfold load. destruct (parse_file c i) as [f|?|?]; cbn [map_err bind].
  - split; [|discriminate]. intro H. destruct (build_sprite_panic _ _ H).
  - split; discriminate.
  - split; intros [= ->]; reflexivity.
Qed.

Lemma load_ok c i s : load c i = Ok s <-> parse_file c i = Ok (af_file s) /\ build_sprite (af_file s) = Ok s.
Proof.
  unfold load. destruct (parse_file c i) as [f|?|?]; cbn [map_err bind].
  - split.
    + intro H. pose proof (build_sprite_ok _ _ H) as [E _]. rewrite E in *. auto.
    + intros [[= ->] H]. exact H.
  - split; [discriminate|]. intros [? _]. discriminate.
  - split; [discriminate|]. intros [? _]. discriminate.
Qed.
