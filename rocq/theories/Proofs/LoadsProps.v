(** Exactly what [load] returns. *)
From Verif.Model Require Import Loader.
From Verif.Spec Require Import Bytes Format FileSpec LoaderSpec Loads.
From Verif.Proofs Require Import ParseLib RawFacts FileProps LoaderFacts LoaderProps FileFinal EditProps.

Lemma layers_of_build ls : build_layers ls = layers_of ls.
Proof.
  unfold build_layers, layers_of. induction ls as [|l ls IH]; [reflexivity|]. cbn [filter].
  replace (keep_layer l) with (match lc_layer_type l with LNormal | LGroup => true | _ => false end)
    by (unfold keep_layer; now destruct (lc_layer_type l)).
  destruct (lc_layer_type l); cbn [map]; rewrite ?IH; try reflexivity;
    (f_equal; unfold build_layer, layer_of; now rewrite visible_bit).
Qed.

Lemma parse_file_complete c i f : cfg_ok c -> is_bytes i -> addressable c i ->
  (parse_file c i = Ok f <-> exists raw, raw_file_l (kept_error c) raw i /\ complete_file raw f).
Proof.
  intros Hc Hi Ha. split.
  - intro H. destruct (parse_file_ok c i f Hc Hi Ha H) as (raw & pal & Hr & _ & Hp & Hf & Hl).
    exists raw. split; [exact Hr|]. exists pal. auto.
  - intros (raw & Hr & pal & Hp & -> & Hl). rewrite (parse_file_outcome c i raw Hc Hi Ha Hr).
    unfold spec_outcome. rewrite Hp. destruct (find _ _) as [x|] eqn:E; [|reflexivity].
    apply find_some in E as [Hx Hb]. rewrite Forall_forall in Hl. specialize (Hl x Hx). unfold bad_cel in Hb. lia.
Qed.

Lemma repeats_nonneg c i f : cfg_ok c -> is_bytes i -> addressable c i -> parse_file c i = Ok f ->
  Forall (fun t => 0 <= tg_animation_repeat t) (f_tags f).
Proof.
  intros Hc Hi Ha Hp. destruct (parse_file_ok c i _ Hc Hi Ha Hp) as (raw & pal & _ & Hr & _ & -> & _). cbn [file_of f_tags].
  apply Forall_forall. intros t Ht. apply in_flat_map in Ht as (fr & Hfr & Ht).
  apply suffixes_flat_in in Ht as (x & r & a & Hcs & Ht). destruct x; try contradiction.
  apply give_in in Ht as (t1 & u & Ht1 & -> & _).
  destruct (raw_payloads c i raw Hc Hi Ha Hr) as (_ & _ & HP). rewrite Forall_forall in HP.
  destruct (HP fr Hfr) as [_ HP']. rewrite Hcs in HP'. apply Forall_app in HP' as [_ HP'].
  inversion HP' as [|? ? [d Hd] _]; subst. cbn [payload_l] in Hd.
  destruct Hd as (e & g & (ig & body & _ & _ & Hs & _) & _).
  eapply (Forall_seq tag_l (fun t => 0 <= tg_animation_repeat t)) in Hs.
  - rewrite Forall_forall in Hs. exact (Hs _ Ht1).
  - intros t' e' (dir & ig' & la & en & H1 & H2 & H3 & H4 & H5 & H6 & _). unfold u16, uint in *. cbn in *. lia.
Qed.

Lemma tags_of_build ts : Forall (fun t => 0 <= tg_animation_repeat t) ts -> map build_tag ts = map tag_of ts.
Proof.
  induction 1 as [|t ts Ht _ IH]; cbn [map]; [reflexivity|]. rewrite IH. f_equal. unfold build_tag, tag_of.
  destruct (Z.ltb_spec 0 (tg_animation_repeat t)), (Z.eqb_spec (tg_animation_repeat t) 0); try lia; reflexivity.
Qed.

Lemma shown_no_problem fs k x fc : shows fs k x fc -> cel_problem fs (k, x) = [].
Proof.
  intros (_ & _ & _ & p & im & Hp & Hn & _). unfold cel_problem, source_frame in *. destruct (cc_content x); try discriminate.
  - reflexivity.
  - injection Hp as ->. apply nth_error_In in Hn. replace (existsb _ _) with true; [reflexivity|]. symmetry.
    apply existsb_exists. eexists. split; [exact Hn|]. cbn. now rewrite !Z.eqb_refl.
Qed.

Lemma Forall2_weaken {A B} (R R' : A -> B -> Prop) l l' : (forall a b, R a b -> R' a b) -> Forall2 R l l' -> Forall2 R' l l'.
Proof. intro H. induction 1; constructor; auto. Qed.
Lemma Forall2_same {A B} (R : A -> B -> Prop) l : forall bs bs', (forall a b b', In a l -> R a b -> R a b' -> b = b') ->
  Forall2 R l bs -> Forall2 R l bs' -> bs = bs'.
Proof.
  induction l as [|a l IH]; intros bs bs' H H1 H2; inversion H1; inversion H2; subst; [reflexivity|].
  f_equal; [eapply H; eauto; now left|]. apply IH; try assumption. intros. eapply H; eauto. now right.
Qed.

Lemma frames_same fs a b : NoDup (map fst (image_cels fs)) ->
  Forall2 (fun '(k, fr) sf => sf_duration sf = fr_duration fr /\ sf_origin sf = (0, 0) /\
     Forall2 (shows fs k) (filled fr) (sf_cels sf)) (numbered 0 fs) a ->
  Forall2 (fun '(k, fr) sf => sf_duration sf = fr_duration fr /\ sf_origin sf = (0, 0) /\
     Forall2 (shows fs k) (filled fr) (sf_cels sf)) (numbered 0 fs) b -> a = b.
Proof.
  intro N. apply Forall2_same. intros [k fr] [d o cs] [d' o' cs'] _ (H1 & H2 & H3) (H1' & H2' & H3'). cbn in *. subst.
  f_equal. revert H3 H3'. apply Forall2_same. intros x fc fc' _ Hx Hy.
  apply (shows_prefix fs fs k x fc fc' []); try assumption. now rewrite app_nil_r.
Qed.

Lemma load_exactly c i s : cfg_ok c -> is_bytes i -> addressable c i ->
  (load c i = Ok s <-> exists raw, raw_file_l (kept_error c) raw i /\ stands_for raw s).
Proof.
  intros Hc Hi Ha. rewrite load_ok. split.
  - intros [Hp Hb]. pose proof (repeats_nonneg c i _ Hc Hi Ha Hp) as HT.
    apply (parse_file_complete c i _ Hc Hi Ha) in Hp as (raw & Hr & Hf). exists raw. split; [exact Hr|].
    destruct (build_sprite_ok _ _ Hb) as (_ & El & Et & Ei & HF). split; [exact Hf|].
    split; [now rewrite El, layers_of_build|]. split; [now rewrite Et, tags_of_build|]. split; [exact Ei|].
    revert HF. apply Forall2_weaken. intros [k fr] sf H. exact H.
  - intros (raw & Hr & Hf & El & Et & Ei & HF).
    assert (Hp : parse_file c i = Ok (af_file s)) by (apply (parse_file_complete c i _ Hc Hi Ha); eauto).
    split; [exact Hp|]. pose proof (repeats_nonneg c i _ Hc Hi Ha Hp) as HT.
    pose proof (image_keys _ (parsed_wf c i _ Hc Hi Ha Hp)) as N.
    assert (P : problems (f_frames (af_file s)) = []).
    { unfold problems. apply flat_map_nil. intros [k x] Hx. unfold file_cels in Hx.
      apply in_flat_map in Hx as ([k' fr] & Hfr & Hx). apply in_map_iff in Hx as (x' & [= -> ->] & Hx).
      destruct (Forall2_in _ _ _ _ HF Hfr) as (sf & _ & _ & _ & HF2).
      destruct (Forall2_in _ _ _ _ HF2 Hx) as (fc & _ & Hs). exact (shown_no_problem _ _ _ _ Hs). }
    pose proof (build_sprite_outcome (af_file s)) as HO. rewrite P in HO. destruct HO as [s' Hs'].
    rewrite Hs'. f_equal. destruct (build_sprite_ok _ _ Hs') as (Ef & El' & Et' & Ei' & HF').
    rewrite layers_of_build in El'. rewrite tags_of_build in Et' by exact HT.
    assert (E : af_frames s' = af_frames s).
    { eapply frames_same; [exact N| |exact HF]. revert HF'. apply Forall2_weaken. intros [k fr] sf H. exact H. }
    destruct s, s'. cbn in *. congruence.
Qed.

Lemma stands_for_same c i raw s s' : cfg_ok c -> is_bytes i -> addressable c i -> raw_file_l (kept_error c) raw i ->
  stands_for raw s -> stands_for raw s' -> s = s'.
Proof.
  intros Hc Hi Ha Hr H H'.
  assert (L : load c i = Ok s) by (apply load_exactly; eauto).
  assert (L' : load c i = Ok s') by (apply load_exactly; eauto). congruence.
Qed.

Lemma cel_wrong_problem fs k x e : cel_wrong fs k x e <-> cel_problem fs (k, x) = [e].
Proof.
  unfold cel_wrong, cel_problem. destruct (cc_content x) as [im|p| |].
  - split; [tauto|discriminate].
  - destruct (existsb _ _) eqn:E.
    + split; [|discriminate]. intros [H _]. apply existsb_exists in E as ([[a b] im] & Hin & Hk). cbn in Hk.
      apply andb_true_iff in Hk as [E1 E2]. apply Z.eqb_eq in E1, E2. subst. destruct (H im Hin).
    + split; [intros [_ ->]; reflexivity|]. intros [= <-]. split; [|reflexivity]. intros im Hin.
      assert (existsb (fun q : Z * Z * image => (fst (fst q) =? p) && (snd (fst q) =? cc_layer_index x)) (image_cels fs) = true); [|congruence].
      apply existsb_exists. eexists. split; [exact Hin|]. cbn. now rewrite !Z.eqb_refl.
  - split; [intros ->; reflexivity|now intros [= <-]].
  - split; [intros ->; reflexivity|now intros [= <-]].
Qed.

Lemma cel_problem_one fs kx : cel_problem fs kx = [] \/ exists e, cel_problem fs kx = [e].
Proof.
  destruct kx as [k x]. unfold cel_problem. destruct (cc_content x); [now left| |right; eauto..].
  destruct (existsb _ _); [now left|right; eauto].
Qed.

Lemma first_problem {A B} (g : A -> list B) l e : (forall a, g a = [] \/ exists b, g a = [b]) ->
  ((exists r, flat_map g l = e :: r) <->
   exists before a after, l = before ++ a :: after /\ Forall (fun a => g a = []) before /\ g a = [e]).
Proof.
  intro H1. split.
  - intros [r Hr]. induction l as [|a l IH]; cbn [flat_map] in Hr; [discriminate|].
    destruct (H1 a) as [E|[b E]].
    + rewrite E in Hr. cbn [app] in Hr. destruct (IH Hr) as (p & a' & q & -> & Hp & Ha').
      exists (a :: p), a', q. split; [reflexivity|]. split; [now constructor|exact Ha'].
    + rewrite E in Hr. injection Hr as -> _. exists [], a, l. auto.
  - intros (p & a & q & -> & Hp & Ha). exists (flat_map g q). rewrite flat_map_app. cbn [flat_map]. rewrite Ha.
    replace (flat_map g p) with (@nil B); [reflexivity|]. symmetry. apply flat_map_nil. intros x Hx.
    rewrite Forall_forall in Hp. auto.
Qed.

Lemma load_refused c i e : cfg_ok c -> is_bytes i -> addressable c i ->
  (load c i = Err e <->
   (exists x, e = LParse x /\ parse_file c i = Err x) \/
   exists raw f before k x after, raw_file_l (kept_error c) raw i /\ complete_file raw f /\
     file_cels (f_frames f) = before ++ (k, x) :: after /\ cel_wrong (f_frames f) k x e /\
     Forall (fun '(k, x) => forall e, ~ cel_wrong (f_frames f) k x e) before).
Proof.
  intros Hc Hi Ha.
  assert (NP : forall fs kx, cel_problem fs kx = [] <-> (let '(k, x) := kx in forall e, ~ cel_wrong fs k x e)).
  { intros fs [k x]. split.
    - intros H e0 Hw. apply cel_wrong_problem in Hw. congruence.
    - intro H. destruct (cel_problem_one fs (k, x)) as [E|[e0 E]]; [exact E|]. apply cel_wrong_problem in E. destruct (H _ E). }
  assert (FP : forall fs, (exists r, problems fs = e :: r) <->
    exists before k x after, file_cels fs = before ++ (k, x) :: after /\ cel_wrong fs k x e /\
      Forall (fun '(k, x) => forall e, ~ cel_wrong fs k x e) before).
  { intro fs. unfold problems. rewrite (first_problem _ _ e (cel_problem_one fs)). split.
    - intros (p & [k x] & q & H1 & H2 & H3). exists p, k, x, q. split; [exact H1|]. split; [now apply cel_wrong_problem|].
      revert H2. apply Forall_impl. intros kx. apply NP.
    - intros (p & k & x & q & H1 & H2 & H3). exists p, (k, x), q. split; [exact H1|]. split; [|now apply cel_wrong_problem].
      revert H3. apply Forall_impl. intros kx. apply NP. }
  split.
  - intro H. unfold load in H. destruct (parse_file c i) as [f|x|q] eqn:Hp; cbn [map_err bind] in H; [|injection H as <-; eauto|discriminate].
    right. pose proof (build_sprite_outcome f) as HO.
    apply (parse_file_complete c i _ Hc Hi Ha) in Hp as (raw & Hr & Hf). exists raw, f.
    assert (P : exists r, problems (f_frames f) = e :: r).
    { destruct (problems (f_frames f)) as [|e' r]; [destruct HO as [s Hs]; congruence|]. exists r. congruence. }
    apply FP in P as (p & k & x & q & H1 & H2 & H3). exists p, k, x, q. auto.
  - intros [(x & -> & Hp)|(raw & f & p & k & x & q & Hr & Hf & H1 & H2 & H3)].
    + unfold load. now rewrite Hp.
    + assert (Hp : parse_file c i = Ok f) by (apply (parse_file_complete c i _ Hc Hi Ha); eauto).
      unfold load. rewrite Hp. cbn [map_err bind]. pose proof (build_sprite_outcome f) as HO.
      assert (P : exists r, problems (f_frames f) = e :: r) by (apply FP; exists p, k, x, q; auto).
      destruct P as [r P]. now rewrite P in HO.
Qed.
