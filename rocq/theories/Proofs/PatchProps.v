(** Changing a file in place (C124, C125). *)
From Verif.Model Require Import Loader.
From Verif.Spec Require Import Bytes Format FileSpec LoaderSpec Loads Patch.
From Verif.Proofs Require Import ParseLib FileFacts FileProps LoaderFacts LoaderProps RenderFacts LoadsProps EditFacts EditProps.

(** ** The bytes *)
Definition re_content (x : cel_chunk) (y : cel_content) : cel_chunk :=
  {| cc_layer_index := cc_layer_index x; cc_x := cc_x x; cc_y := cc_y x;
     cc_opacity := cc_opacity x; cc_z_index := cc_z_index x; cc_content := y; cc_user_data := cc_user_data x |}.
Definition re_place (x : cel_chunk) (p q : Z) : cel_chunk :=
  {| cc_layer_index := cc_layer_index x; cc_x := p; cc_y := q;
     cc_opacity := cc_opacity x; cc_z_index := cc_z_index x; cc_content := cc_content x; cc_user_data := cc_user_data x |}.
Definition re_frame (fr : raw_frame) (cs : list chunk) : raw_frame :=
  {| rf_duration := rf_duration fr; rf_chunks := cs |}.
Definition re_file (raw : raw_file) (fs : list raw_frame) : raw_file :=
  {| rw_header := rw_header raw; rw_frames := fs |}.

Lemma seq_split {A} (L : A -> bytes -> Prop) l1 x l2 e : seq_l L (l1 ++ x :: l2) e ->
  exists e1 ex e2, e = e1 ++ ex ++ e2 /\ L x ex /\
    forall x' ex', L x' ex' -> seq_l L (l1 ++ x' :: l2) (e1 ++ ex' ++ e2).
Proof.
  revert e. induction l1 as [|y l1 IH]; intros e H.
  - apply seq_l_cons_inv in H as (ex & e2 & -> & Hx & H2). exists [], ex, e2. repeat split; auto.
    intros x' ex' H. apply (seq_l_cons L x' l2 ex' e2 H H2).
  - apply seq_l_cons_inv in H as (ey & e' & -> & Hy & H). apply IH in H as (e1 & ex & e2 & -> & Hx & H).
    exists (ey ++ e1), ex, e2. rewrite <- !app_assoc. repeat split; auto.
    intros x' ex' H'. rewrite <- !app_assoc. apply (seq_l_cons L y _ ey); auto.
Qed.

Lemma zlen_swap (a o o' b : bytes) : zlen o' = zlen o -> zlen (a ++ o' ++ b) = zlen (a ++ o ++ b).
Proof. rewrite !zlen_app. lia. Qed.

Section Bytes_.
Context (err : bytes -> Z -> nom_err -> Prop).

(** [o] can be overwritten by [o'], which makes [x'] of [x] *)
Lemma chunk_data x im e : cc_content x = CImage im -> chunk_l err (ChCel x) e ->
  exists a, e = a ++ im_data im /\
    forall d, zlen d = zlen (im_data im) -> chunk_l err (ChCel (re_content x (CImage (with_data im d)))) (a ++ d).
Proof.
  intros Ec (dd & He & Hp & E). cbn [payload_l chunk_code] in Hp, E.
  destruct Hp as (ty & ig & body & H1 & H2 & H3 & H4 & H5 & H6 & H7 & H8 & H9 & ->).
  rewrite Ec in H8. destruct H8 as (G1 & G2 & G3 & ->).
  exists (le 4 (zlen e) ++ le 2 0x2005 ++ le 2 (cc_layer_index x) ++ les 2 (cc_x x) ++ les 2 (cc_y x) ++ le 1 (cc_opacity x) ++
        le 2 ty ++ les 2 (cc_z_index x) ++ ig ++ le 2 (im_width im) ++ le 2 (im_height im)).
  split; [rewrite <- !app_assoc; exact E|]. intros d Hd.
  assert (El : zlen e = zlen ((le 4 (zlen e) ++ le 2 0x2005 ++ le 2 (cc_layer_index x) ++ les 2 (cc_x x) ++ les 2 (cc_y x) ++ le 1 (cc_opacity x) ++
        le 2 ty ++ les 2 (cc_z_index x) ++ ig ++ le 2 (im_width im) ++ le 2 (im_height im)) ++ d)).
  { rewrite E at 1. rewrite !zlen_app, Hd. lia. }
  eexists. split; [rewrite <- El; exact He|]. split; [|rewrite <- El; rewrite <- !app_assoc; reflexivity].
  exists ty, ig, (le 2 (im_width im) ++ le 2 (im_height im) ++ d). cbn.
  do 7 (split; [assumption|]). split; [auto|]. split; [assumption|reflexivity].
Qed.

Lemma chunk_place x e : chunk_l err (ChCel x) e ->
  i16 (cc_x x) /\ i16 (cc_y x) /\ 0 <= cc_layer_index x /\
  exists a b, e = a ++ (les 2 (cc_x x) ++ les 2 (cc_y x)) ++ b /\
    forall p q, i16 p -> i16 q -> chunk_l err (ChCel (re_place x p q)) (a ++ (les 2 p ++ les 2 q) ++ b).
Proof.
  intros (dd & He & Hp & E). cbn [payload_l chunk_code] in Hp, E.
  destruct Hp as (ty & ig & body & H1 & H2 & H3 & H4 & H5 & H6 & H7 & H8 & H9 & ->).
  split; [exact H2|]. split; [exact H3|]. split; [destruct H1; lia|].
  exists (le 4 (zlen e) ++ le 2 0x2005 ++ le 2 (cc_layer_index x)),
    (le 1 (cc_opacity x) ++ le 2 ty ++ les 2 (cc_z_index x) ++ ig ++ body).
  split; [rewrite <- !app_assoc; exact E|]. intros p q Hp Hq.
  assert (El : zlen e = zlen ((le 4 (zlen e) ++ le 2 0x2005 ++ le 2 (cc_layer_index x)) ++ (les 2 p ++ les 2 q) ++
    le 1 (cc_opacity x) ++ le 2 ty ++ les 2 (cc_z_index x) ++ ig ++ body)).
  { rewrite E at 1. rewrite !zlen_app. unfold les. rewrite !zlen_le. lia. }
  eexists. split; [rewrite <- El; exact He|]. split; [|rewrite <- El; rewrite <- !app_assoc; reflexivity].
  exists ty, ig, body. cbn. do 9 (split; [assumption|]). reflexivity.
Qed.

Lemma frame_bytes fr P x0 Q e : rf_chunks fr = P ++ x0 :: Q -> frame_l err fr e ->
  exists a ex b, e = a ++ ex ++ b /\ chunk_l err x0 ex /\
    forall x' ex', zlen ex' = zlen ex -> chunk_l err x' ex' ->
      frame_l err (re_frame fr (P ++ x' :: Q)) (a ++ ex' ++ b).
Proof.
  intros Ec (old & new & ig1 & body & ig2 & H1 & H2 & H3 & H4 & H5 & H6 & H7 & E). rewrite Ec in H7.
  apply seq_split in H7 as (e1 & ex & e2 & -> & Hx & Hj).
  exists (le 4 (zlen e) ++ le 2 0xF1FA ++ le 2 old ++ le 2 (rf_duration fr) ++ ig1 ++ le 4 new ++ e1), ex, (e2 ++ ig2).
  split; [rewrite <- !app_assoc; rewrite <- !app_assoc in E; exact E|]. split; [exact Hx|].
  intros x' ex' Hl Hx'.
  assert (El : zlen e = zlen ((le 4 (zlen e) ++ le 2 0xF1FA ++ le 2 old ++ le 2 (rf_duration fr) ++ ig1 ++ le 4 new ++ e1)
     ++ ex' ++ e2 ++ ig2)).
  { rewrite E at 1. rewrite !zlen_app, Hl. lia. }
  exists old, new, ig1, (e1 ++ ex' ++ e2), ig2. cbn [re_frame rf_duration rf_chunks].
  rewrite <- El. do 5 (split; [assumption|]). split; [|split].
  - rewrite <- H6, Ec. unfold zlen. rewrite !app_length. reflexivity.
  - now apply Hj.
  - rewrite <- !app_assoc. reflexivity.
Qed.

Lemma file_bytes raw F1 fr F2 P x0 Q e : rw_frames raw = F1 ++ fr :: F2 -> rf_chunks fr = P ++ x0 :: Q -> raw_file_l err raw e ->
  exists a ex b, e = a ++ ex ++ b /\ chunk_l err x0 ex /\
    forall x' ex', zlen ex' = zlen ex -> chunk_l err x' ex' ->
      raw_file_l err (re_file raw (F1 ++ re_frame fr (P ++ x' :: Q) :: F2)) (a ++ ex' ++ b).
Proof.
  intros Ef Ec (e1 & e2 & H1 & H2 & H3 & ->). rewrite Ef in H3.
  apply seq_split in H3 as (a1 & ef & b1 & -> & Hf & Hj).
  destruct (frame_bytes fr P x0 Q ef Ec Hf) as (a & ex & b & -> & Hx & Hr).
  exists (e1 ++ a1 ++ a), ex, (b ++ b1). split; [now rewrite <- !app_assoc|]. split; [exact Hx|].
  intros x' ex' Hl Hx'. exists e1, (a1 ++ (a ++ ex' ++ b) ++ b1). cbn [re_file rw_header rw_frames].
  repeat split; [exact H1| | |now rewrite <- !app_assoc].
  - now destruct F1.
  - apply Hj. now apply Hr.
Qed.
End Bytes_.

(** ** The cels of a frame *)
Lemma cels_split cs : forall A x B, spec_cels cs = A ++ x :: B ->
  exists P x0 Q, cs = P ++ ChCel x0 :: Q /\ x = cel_with x0 (own Q) /\ spec_cels Q = B /\
    forall x0', spec_cels (P ++ ChCel x0' :: Q) = A ++ cel_with x0' (own Q) :: B.
Proof.
  induction cs as [|y cs IH]; intros A x B H.
  - destruct A; discriminate.
  - unfold spec_cels in H. cbn [suffixes flat_map] in H. change (flat_map _ (suffixes cs)) with (spec_cels cs) in H.
    assert (Hown : forall P x0 x0' Q, own (P ++ ChCel x0 :: Q) = own (P ++ ChCel x0' :: Q)).
    { intros P x0 x0' Q. unfold own. now rewrite (followers_app P (ChCel x0 :: Q) (ChCel x0' :: Q) eq_refl). }
    assert (G : forall pre, spec_cels (y :: cs) = pre ++ spec_cels cs -> (forall cs', spec_cels (y :: cs') = match y with ChCel l => [cel_with l (own cs')] | _ => [] end ++ spec_cels cs') ->
       forall A', A = pre ++ A' -> spec_cels cs = A' ++ x :: B ->
       (forall P x0 x0' Q, cs = P ++ ChCel x0 :: Q -> match y with ChCel l => [cel_with l (own (P ++ ChCel x0' :: Q))] | _ => [] end = pre) ->
       exists P x0 Q, y :: cs = P ++ ChCel x0 :: Q /\ x = cel_with x0 (own Q) /\ spec_cels Q = B /\
         forall x0', spec_cels (P ++ ChCel x0' :: Q) = A ++ cel_with x0' (own Q) :: B).
    { intros pre E1 E2 A' -> E3 E4. destruct (IH _ _ _ E3) as (P & x0 & Q & -> & Ex & EQ & HP).
      exists (y :: P), x0, Q. repeat split; auto. intro x0'. cbn [app]. rewrite E2, HP.
      rewrite (E4 P x0 x0' Q eq_refl). now rewrite <- app_assoc. }
    destruct y as [| | |yc| | | | | | | | | | |]; cbn [app] in H; try (apply (G [] eq_refl (fun _ => eq_refl) A eq_refl H); reflexivity).
    destruct A as [|z A]; cbn [app] in H; injection H as H H'.
    + exists [], yc, cs. repeat split; auto. intro x0'. unfold spec_cels. cbn [app suffixes flat_map].
      change (flat_map _ (suffixes cs)) with (spec_cels cs). now rewrite H'.
    + apply (G [z]) with (A' := A); auto.
      * unfold spec_cels. cbn [suffixes flat_map app]. now rewrite H.
      * intros P x0 x0' Q ->. rewrite <- H. now rewrite (Hown P x0 x0' Q).
Qed.

Lemma find_split {A} (g : A -> bool) l x : find g l = Some x ->
  exists a b, l = a ++ x :: b /\ g x = true /\ Forall (fun y => g y = false) a.
Proof.
  induction l as [|y l IH]; cbn; [discriminate|]. destruct (g y) eqn:E.
  - intros [= ->]. exists [], l. auto.
  - intro H. destruct (IH H) as (a & b & -> & Hx & Ha). exists (y :: a), b. auto.
Qed.
Lemma cel_at_split l cs x : cel_at l cs = Some x ->
  exists A B, cs = A ++ x :: B /\ cc_layer_index x = l /\ Forall (fun y => cc_layer_index y <> l) B.
Proof.
  intro H. apply find_split in H as (a & b & E & Hx & Ha). exists (rev b), (rev a).
  rewrite <- (rev_involutive cs), E, rev_app_distr. cbn [rev]. rewrite <- app_assoc. repeat split; [lia|].
  apply Forall_rev. eapply Forall_impl; [|exact Ha]. cbn. intros. lia.
Qed.
Lemma find_app {A} (g : A -> bool) a b : find g (a ++ b) = match find g a with Some x => Some x | None => find g b end.
Proof. induction a as [|x a IH]; cbn; [reflexivity|]. now destruct (g x). Qed.
Lemma cel_at_here l A x B : cc_layer_index x = l -> Forall (fun y => cc_layer_index y <> l) B ->
  cel_at l (A ++ x :: B) = Some x.
Proof.
  intros Hx HB. unfold cel_at. rewrite rev_app_distr. cbn [rev]. rewrite <- app_assoc, find_app.
  assert (E : find (fun y => cc_layer_index y =? l) (rev B) = None).
  { apply Forall_rev in HB. induction HB as [|y b Hy HB IH]; [reflexivity|]. cbn.
    destruct (Z.eqb_spec (cc_layer_index y) l); [contradiction|exact IH]. }
  rewrite E. cbn [app find]. now rewrite Hx, Z.eqb_refl.
Qed.
Lemma cel_at_else k A x B : cc_layer_index x <> k -> cel_at k (A ++ x :: B) = cel_at k (A ++ B).
Proof.
  intro Hx. unfold cel_at. rewrite !rev_app_distr. cbn [rev]. rewrite <- app_assoc, !find_app. cbn [app find].
  destruct (Z.eqb_spec (cc_layer_index x) k); [contradiction|reflexivity].
Qed.
Lemma slots_split n l A B : 0 <= l < n -> Forall (fun y => cc_layer_index y <> l) B ->
  exists S1 S2, forall x, cc_layer_index x = l -> slots n (A ++ x :: B) = S1 ++ Some x :: S2.
Proof.
  intros Hl HB. assert (Hin : In l (zrange n)) by now apply zrange_in.
  apply in_split in Hin as (z1 & z2 & E). pose proof (zrange_nodup n) as N. rewrite E in N.
  apply NoDup_remove_2 in N.
  exists (map (fun k => cel_at k (A ++ B)) z1), (map (fun k => cel_at k (A ++ B)) z2). intros x Hx.
  unfold slots. rewrite E, map_app. cbn [map]. rewrite (cel_at_here l A x B Hx HB). f_equal.
  - apply map_ext_in. intros k Hk. apply cel_at_else. intro. subst. apply N, in_app_iff. now left.
  - f_equal. apply map_ext_in. intros k Hk. apply cel_at_else. intro. subst. apply N, in_app_iff. now right.
Qed.

(** ** Another cel in the place of one *)
Definition alike (x y : cel_chunk) : Prop :=
  cc_layer_index y = cc_layer_index x /\
  (cc_content y = cc_content x \/
   exists im im', cc_content x = CImage im /\ cc_content y = CImage im' /\
     im_width im' = im_width im /\ im_height im' = im_height im).
Lemma alike_refl x : alike x x.
Proof. split; auto. Qed.
Lemma alike_source k x y : alike x y -> source_frame k y = source_frame k x.
Proof.
  intros [_ [E|(im & im' & E & E' & _)]]; unfold source_frame; [now rewrite E|now rewrite E, E'].
Qed.
Definition pics (k : Z) (x : cel_chunk) : list ((Z * Z) * image) :=
  match cc_content x with CImage im => [((k, cc_layer_index x), im)] | _ => [] end.

Lemma nth_pics k x y (Z1 Z2 : list ((Z * Z) * image)) j key im : alike x y ->
  nth_error (Z1 ++ pics k x ++ Z2) j = Some (key, im) ->
  exists im', nth_error (Z1 ++ pics k y ++ Z2) j = Some (key, im') /\ im_width im' = im_width im /\ im_height im' = im_height im.
Proof.
  intros [El [E|(i1 & i2 & E & E' & Ew & Eh)]] H; unfold pics in *.
  - rewrite E, El. eauto.
  - rewrite E in H. rewrite E', El. destruct (Nat.lt_ge_cases j (length Z1)) as [L|L].
    + rewrite nth_error_app1 in * by assumption. eauto.
    + rewrite nth_error_app2 in * by assumption. destruct (j - length Z1)%nat; cbn [app nth_error] in *; [|eauto].
      injection H as <- <-. eauto.
Qed.

Section Change.
Context (raw : raw_file) (s : ase_file) (Hs : stands_for raw s).
Context (F1 : list raw_frame) (fr : raw_frame) (F2 : list raw_frame) (P : list chunk) (x0 : cel_chunk) (Q : list chunk).
Context (A B : list cel_chunk).
Context (Ef : rw_frames raw = F1 ++ fr :: F2) (Ec : rf_chunks fr = P ++ ChCel x0 :: Q).
Context (HA : forall x, spec_cels (P ++ ChCel x :: Q) = A ++ cel_with x (own Q) :: B).
Context (HB : Forall (fun y => cc_layer_index y <> cc_layer_index x0) B) (H0 : 0 <= cc_layer_index x0).

Definition fr_new x := re_frame fr (P ++ ChCel x :: Q).
Definition raw_new x := re_file raw (F1 ++ fr_new x :: F2).
Lemma raw_same : raw_new x0 = raw.
Proof.
  unfold raw_new, fr_new, re_file, re_frame. rewrite <- Ec. destruct fr as [du cs]. cbn [rf_duration rf_chunks].
  rewrite <- Ef. now destruct raw.
Qed.

Lemma proj_new {X} (g : chunk -> list user_data_chunk -> list X) x : (forall y us, g (ChCel y) us = []) ->
  proj g (rf_chunks (fr_new x)) = proj g (rf_chunks fr).
Proof.
  intro Hg. unfold fr_new. cbn [re_frame rf_chunks]. rewrite Ec. apply proj_app; [reflexivity|].
  unfold proj. cbn [suffixes flat_map]. now rewrite !Hg.
Qed.
Lemma all_new {X} (h : raw_frame -> list X) x : h (fr_new x) = h fr ->
  flat_map h (rw_frames (raw_new x)) = flat_map h (rw_frames raw).
Proof. intro H. unfold raw_new. cbn [re_file rw_frames]. rewrite Ef, !flat_map_app. cbn [flat_map]. now rewrite H. Qed.
Lemma layers_new x : spec_all_layers (raw_new x) = spec_all_layers raw.
Proof. apply all_new. exact (proj_new g_layer x (fun _ _ => eq_refl)). Qed.
Lemma tags_new x : flat_map (fun fr => spec_tags (rf_chunks fr)) (rw_frames (raw_new x)) = flat_map (fun fr => spec_tags (rf_chunks fr)) (rw_frames raw).
Proof. apply all_new. exact (proj_new g_tags x (fun _ _ => eq_refl)). Qed.
Lemma slices_new x : flat_map (fun fr => spec_slices (rf_chunks fr)) (rw_frames (raw_new x)) = flat_map (fun fr => spec_slices (rf_chunks fr)) (rw_frames raw).
Proof. apply all_new. exact (proj_new g_slice x (fun _ _ => eq_refl)). Qed.
Lemma data_new x : match rw_frames (raw_new x) with f :: _ => spec_sprite_data (rf_chunks f) | [] => None end =
  match rw_frames raw with f :: _ => spec_sprite_data (rf_chunks f) | [] => None end.
Proof.
  unfold raw_new. cbn [re_file rw_frames]. rewrite Ef. destruct F1 as [|f F]; cbn [app]; [|reflexivity].
  unfold spec_sprite_data. f_equal. exact (proj_new g_data x (fun _ _ => eq_refl)).
Qed.
Lemma flat_chunks {X} (g : chunk -> list X) fs : flat_map g (all_chunks fs) = flat_map (fun f => flat_map g (rf_chunks f)) fs.
Proof. unfold all_chunks. induction fs as [|f fs IH]; [reflexivity|]. cbn. now rewrite flat_map_app, IH. Qed.
Lemma plain_new {X} (g : chunk -> list X) x : (forall y, g (ChCel y) = []) ->
  flat_map g (all_chunks (rw_frames (raw_new x))) = flat_map g (all_chunks (rw_frames raw)).
Proof.
  intro Hg. rewrite !flat_chunks. apply all_new. rewrite !proj_plain. now apply proj_new.
Qed.
Lemma palette_new x : palette_of (raw_new x) = palette_of raw.
Proof.
  unfold palette_of. cbn [raw_new re_file rw_header]. change (F1 ++ fr_new x :: F2) with (rw_frames (raw_new x)).
  assert (E : spec_palette (h_transparent_index (rw_header raw)) (rw_frames (raw_new x)) = spec_palette (h_transparent_index (rw_header raw)) (rw_frames raw)).
  { unfold spec_palette, spec_writes. unfold new_palettes, palettes_0004, palettes_0011.
    rewrite !(plain_new _ x) by reflexivity. reflexivity. }
  cbn [re_file rw_frames] in *. now rewrite E.
Qed.

Let n := layer_count raw.
Lemma count_new x : layer_count (raw_new x) = n.
Proof. unfold layer_count. now rewrite layers_new. Qed.
Lemma index_ok : cc_layer_index x0 < n.
Proof.
  destruct Hs as ((pal & _ & _ & HF) & _). rewrite Forall_forall in HF.
  apply (HF (cel_with x0 (own Q))). unfold frame_cels. rewrite Ef. apply in_flat_map. exists fr.
  split; [apply in_app_iff; right; now left|]. rewrite Ec, HA. apply in_app_iff. right. now left.
Qed.
Lemma bound_new x : alike x0 x -> Forall (fun y => cc_layer_index y < layer_count (raw_new x)) (frame_cels (raw_new x)).
Proof.
  intros [El _]. destruct Hs as ((pal & _ & _ & HF) & _). rewrite count_new. revert HF. unfold frame_cels, raw_new.
  cbn [re_file rw_frames]. rewrite Ef, !flat_map_app. cbn [flat_map]. unfold fr_new. cbn [re_frame rf_chunks].
  rewrite Ec, !HA, !Forall_app. intros (G1 & (G2 & G3) & G4). repeat split; auto.
  inversion G3 as [|? ? G5 G6]; subst. constructor; [|exact G6]. cbn in *. rewrite El. exact G5.
Qed.

Lemma change : exists Z1 Z2 G1 sf G2 Y1 fc Y2,
  image_cels (f_frames (af_file s)) = Z1 ++ pics (zlen F1) x0 ++ Z2 /\
  af_frames s = G1 ++ sf :: G2 /\ length G1 = length F1 /\
  sf_cels sf = Y1 ++ fc :: Y2 /\ fc_layer_index fc = cc_layer_index x0 /\ fc_origin fc = (cc_x x0, cc_y x0) /\
  forall x, alike x0 x -> exists s', stands_for (raw_new x) s' /\ same_outline s s' /\
    af_images s' = map snd (Z1 ++ pics (zlen F1) x ++ Z2) /\
    af_frames s' = G1 ++ with_cels sf (Y1 ++ at_origin (cc_x x, cc_y x) fc :: Y2) :: G2.
Proof.
  destruct (slots_split n (cc_layer_index x0) A B (conj H0 index_ok) HB) as (S1 & S2 & HS).
  pose (m := fun f : raw_frame => {| fr_duration := rf_duration f; fr_cels := slots n (spec_cels (rf_chunks f)) |}).
  pose (X1 := flat_map (fun o : option cel_chunk => match o with Some x => [x] | None => [] end) S1).
  pose (X2 := flat_map (fun o : option cel_chunk => match o with Some x => [x] | None => [] end) S2).
  assert (Hfil : forall x, alike x0 x -> filled (m (fr_new x)) = X1 ++ cel_with x (own Q) :: X2).
  { intros x [El _]. unfold filled, m, fr_new. cbn [fr_cels re_frame rf_chunks]. rewrite HA, HS by exact El.
    rewrite flat_map_app. reflexivity. }
  assert (Hfs : forall x pal, f_frames (file_of (raw_new x) pal) = map m F1 ++ m (fr_new x) :: map m F2).
  { intros x pal. unfold file_of. cbn [f_frames]. rewrite count_new. cbn [raw_new re_file rw_frames].
    fold m. rewrite map_app. reflexivity. }
  assert (Hz : zlen (map m F1) = zlen F1) by (unfold zlen; now rewrite map_length).
  pose (pic := fun kx : Z * cel_chunk => match cc_content (snd kx) with CImage im => [((fst kx, cc_layer_index (snd kx)), im)] | _ => [] end).
  pose (fil := fun kf : Z * frame => map (fun x => (fst kf, x)) (filled (snd kf))).
  assert (Hic : forall fs, image_cels fs = flat_map pic (flat_map fil (numbered 0 fs))).
  { intro fs. unfold image_cels, file_cels. etransitivity; [apply (flat_map_ext _ pic); intros [? ?]; reflexivity|].
    f_equal. apply flat_map_ext. now intros [? ?]. }
  pose (N1 := numbered 0 (map m F1)). pose (N2 := numbered (zlen F1 + 1) (map m F2)).
  assert (Hnum : forall x, numbered 0 (map m F1 ++ m (fr_new x) :: map m F2) = N1 ++ (zlen F1, m (fr_new x)) :: N2).
  { intro x. rewrite numbered_app. cbn [numbered]. rewrite Hz. reflexivity. }
  pose (W1 := flat_map pic (flat_map fil N1) ++ flat_map pic (map (fun x => (zlen F1, x)) X1)).
  pose (W2 := flat_map pic (map (fun x => (zlen F1, x)) X2) ++ flat_map pic (flat_map fil N2)).
  assert (Himg : forall x pal, alike x0 x -> image_cels (f_frames (file_of (raw_new x) pal)) = W1 ++ pics (zlen F1) x ++ W2).
  { intros x pal Hx. rewrite Hic, Hfs, Hnum. rewrite !flat_map_app. cbn [flat_map]. rewrite !flat_map_app.
    unfold fil at 2. cbn [fst snd]. rewrite (Hfil x Hx), map_app, !flat_map_app. cbn [map flat_map].
    unfold W1, W2. rewrite <- !app_assoc. reflexivity. }
  pose proof Hs as ((pal & Hp & Efile & Hall) & HL & HT & HI & HF).
  assert (Efs : f_frames (af_file s) = map m F1 ++ m (fr_new x0) :: map m F2).
  { rewrite Efile, <- raw_same. apply Hfs. }
  assert (Eim : image_cels (f_frames (af_file s)) = W1 ++ pics (zlen F1) x0 ++ W2).
  { rewrite Efile, <- raw_same at 1. apply Himg, alike_refl. }
  rewrite Efs, Hnum in HF. apply Forall2_app_inv_l in HF as (G1 & G & HF1 & HF2 & EG).
  inversion HF2 as [|kf1 sf lf1 G2 Hsf HF3 E1 E2]; subst G. destruct Hsf as (Hd & Ho & Hcel).
  rewrite (Hfil x0 (alike_refl x0)) in Hcel. apply Forall2_app_inv_l in Hcel as (Y1 & Y & HY1 & HY2 & EY).
  inversion HY2 as [|xy1 fc ly1 Y2 Hfc HY3 E3 E4]; subst Y.
  exists W1, W2, G1, sf, G2, Y1, fc, Y2. split; [exact Eim|]. split; [exact EG|].
  split. { pose proof (Forall2_length _ _ _ HF1) as E. unfold N1 in E. rewrite <- E. rewrite numbered_length. apply map_length. }
  split; [exact EY|]. destruct Hfc as (O1 & O2 & O3 & p & im & O4 & O5 & O6).
  split; [exact O2|]. split; [exact O1|]. intros x Hx.
  assert (Hsh : forall k y c, shows (map m F1 ++ m (fr_new x0) :: map m F2) k y c -> shows (map m F1 ++ m (fr_new x) :: map m F2) k y c).
  { intros k y c (A1 & A2 & A3 & p' & im' & A4 & A5 & A6). repeat split; auto.
    rewrite <- (Hfs x0 pal), (Himg x0 pal (alike_refl x0)) in A5. apply (nth_pics _ x0 x _ _ _ _ _ Hx) in A5 as (im'' & A5 & E5 & E6).
    exists p', im''. rewrite <- (Hfs x pal), (Himg x pal Hx). rewrite E5, E6. auto. }
  exists {| af_file := file_of (raw_new x) pal; af_layers := af_layers s; af_tags := af_tags s;
            af_images := map snd (W1 ++ pics (zlen F1) x ++ W2);
            af_frames := G1 ++ with_cels sf (Y1 ++ at_origin (cc_x x, cc_y x) fc :: Y2) :: G2 |}.
  split.
  - unfold stands_for. cbn [af_file af_layers af_tags af_images af_frames]. split.
    { exists pal. rewrite palette_new. repeat split; auto. now apply bound_new. }
    split. { rewrite HL, Efile. unfold file_of. cbn [f_layers]. now rewrite layers_new. }
    split. { rewrite HT, Efile. unfold file_of. cbn [f_tags]. now rewrite tags_new. }
    split; [now rewrite Himg|]. rewrite Hfs, Hnum.
    assert (HS' : forall ns gs, Forall2 (fun '(k, f) g => sf_duration g = fr_duration f /\ sf_origin g = (0, 0) /\
        Forall2 (shows (map m F1 ++ m (fr_new x0) :: map m F2) k) (filled f) (sf_cels g)) ns gs ->
      Forall2 (fun '(k, f) g => sf_duration g = fr_duration f /\ sf_origin g = (0, 0) /\
        Forall2 (shows (map m F1 ++ m (fr_new x) :: map m F2) k) (filled f) (sf_cels g)) ns gs).
    { intros ns gs. induction 1 as [|[k f] g ns gs (D1 & D2 & D3) HR IH]; constructor; [|exact IH].
      split; [exact D1|]. split; [exact D2|]. clear -D3 Hsh. induction D3; constructor; auto. }
    apply Forall2_app; [now apply HS'|]. constructor; [|now apply HS'].
    split; [exact Hd|]. split; [exact Ho|]. rewrite (Hfil x Hx). cbn [with_cels sf_cels].
    assert (HV : forall k ys cs, Forall2 (shows (map m F1 ++ m (fr_new x0) :: map m F2) k) ys cs -> Forall2 (shows (map m F1 ++ m (fr_new x) :: map m F2) k) ys cs).
    { intros k ys cs. induction 1; constructor; auto. }
    apply Forall2_app; [now apply HV|]. constructor; [|now apply HV].
    destruct (Hsh _ _ fc (conj O1 (conj O2 (conj O3 (ex_intro _ p (ex_intro _ im (conj O4 (conj O5 O6)))))))) as (_ & _ & _ & p' & im' & Q4 & Q5 & Q6).
    split; [reflexivity|]. split; [cbn; cbn in O2; destruct Hx as [-> _]; exact O2|]. split; [exact O3|].
    exists p', im'. cbn [at_origin fc_image_index fc_size].
    assert (Ew : cc_layer_index (cel_with x (own Q)) = cc_layer_index (cel_with x0 (own Q))) by (cbn; apply Hx).
    rewrite Ew. split; [|auto]. rewrite <- Q4. apply alike_source. exact Hx.
  - split; [|split; reflexivity]. unfold same_outline. cbn [af_file af_layers af_tags]. rewrite Efile. unfold file_of.
    cbn [f_header f_palette f_layers f_tags f_slices f_user_data]. rewrite layers_new, tags_new, slices_new, data_new.
    repeat split; reflexivity.
Qed.
End Change.

(** ** In a loaded file *)
Lemma set_at_mid {X} (a : list X) x y b : set_at (length a) y (a ++ x :: b) = a ++ y :: b.
Proof.
  unfold set_at. rewrite firstn_app, firstn_all, Nat.sub_diag. cbn [firstn]. rewrite app_nil_r. f_equal.
  change (a ++ x :: b) with (a ++ [x] ++ b). rewrite app_assoc, skipn_app.
  rewrite skipn_all2 by (rewrite app_length; cbn; lia). rewrite app_length. cbn [length app].
  replace (S (length a) - (length a + 1))%nat with 0%nat by lia. reflexivity.
Qed.

Lemma locate raw s k fr x : stands_for raw s -> nth_error (f_frames (af_file s)) k = Some fr -> In x (filled fr) ->
  exists F1 rf F2 P x0 Q A B, rw_frames raw = F1 ++ rf :: F2 /\ length F1 = k /\ rf_chunks rf = P ++ ChCel x0 :: Q /\
    (forall y, spec_cels (P ++ ChCel y :: Q) = A ++ cel_with y (own Q) :: B) /\
    Forall (fun y => cc_layer_index y <> cc_layer_index x0) B /\ x = cel_with x0 (own Q).
Proof.
  intros ((pal & _ & E & _) & _) Hk Hx. rewrite E in Hk. unfold file_of in Hk. cbn [f_frames] in Hk.
  rewrite nth_error_map in Hk. destruct (nth_error (rw_frames raw) k) as [rf|] eqn:Er; [|discriminate].
  injection Hk as <-. apply nth_error_split in Er as (F1 & F2 & Ef & El).
  apply in_flat_map in Hx as (o & Ho & Hx). cbn [fr_cels] in Ho. apply in_map_iff in Ho as (l & Eo & _).
  destruct o as [x'|]; [|contradiction]. destruct Hx as [->|[]].
  apply cel_at_split in Eo as (A & B & Es & Hl & HB).
  destruct (cels_split _ _ _ _ Es) as (P & x0 & Q & Ec & Ex & EB & HA).
  exists F1, rf, F2, P, x0, Q, A, B. repeat split; auto. subst x. cbn in Hl. rewrite Hl. exact HB.
Qed.

Lemma is_bytes_swap (a o b d : bytes) : is_bytes (a ++ o ++ b) -> is_bytes d -> is_bytes (a ++ d ++ b).
Proof. unfold is_bytes. rewrite !Forall_app. tauto. Qed.
Lemma addr_swap c (a o b d : bytes) : addressable c (a ++ o ++ b) -> zlen d = zlen o -> addressable c (a ++ d ++ b).
Proof. unfold addressable. intros H E. now rewrite (zlen_swap a o d b E). Qed.

Lemma data_changed c i s j im : cfg_ok c -> is_bytes i -> addressable c i -> load c i = Ok s ->
  nth_error (af_images s) j = Some im ->
  exists a b, i = a ++ im_data im ++ b /\
    forall d, is_bytes d -> zlen d = zlen (im_data im) ->
    exists s', load c (a ++ d ++ b) = Ok s' /\ same_outline s s' /\ af_frames s' = af_frames s /\
      af_images s' = set_at j (with_data im d) (af_images s).
Proof.
  intros Hc Hi Ha Hl Hj. pose proof Hl as Hl'. apply (load_exactly c i s Hc Hi Ha) in Hl' as (raw & Hraw & Hs).
  assert (Ei : af_images s = map snd (image_cels (f_frames (af_file s)))) by apply Hs.
  rewrite Ei, nth_error_map in Hj. destruct (nth_error (image_cels (f_frames (af_file s))) j) as [[key im']|] eqn:En; [|discriminate].
  injection Hj as ->. destruct (image_cels_in s key im (nth_error_In _ _ En)) as (k & fr & x & -> & Hk & Hx & Hcont).
  destruct (locate raw s k fr x Hs Hk Hx) as (F1 & rf & F2 & P & x0 & Q & A & B & Ef & El & Ec & HA & HB & ->).
  cbn in Hcont, En. destruct (file_bytes _ raw F1 rf F2 P (ChCel x0) Q i Ef Ec Hraw) as (a & ex & b & -> & Hex & Hnew).
  destruct (chunk_place _ x0 ex Hex) as (_ & _ & H0 & _).
  destruct (chunk_data _ x0 im ex Hcont Hex) as (a' & -> & Hd).
  destruct (change raw s Hs F1 rf F2 P x0 Q A B Ef Ec HA HB H0) as (Z1 & Z2 & G1 & sf & G2 & Y1 & fc & Y2 & EZ & EG & _ & EY & _ & Eo & Hch).
  exists (a ++ a'), b. split; [now rewrite <- !app_assoc|]. intros d Hdb Hdl.
  destruct (Hch (re_content x0 (CImage (with_data im d)))) as (s' & Hs' & Hso & Him & Hfr).
  { split; [reflexivity|]. right. exists im, (with_data im d). auto. }
  exists s'. split; [|split; [exact Hso|split]].
  - apply load_exactly; [exact Hc| | |].
    + rewrite <- app_assoc. assert (Hi2 : is_bytes ((a ++ a') ++ im_data im ++ b)) by (revert Hi; now rewrite <- !app_assoc).
      rewrite app_assoc. exact (is_bytes_swap _ _ _ _ Hi2 Hdb).
    + assert (Ha2 : addressable c ((a ++ a') ++ im_data im ++ b)) by (revert Ha; now rewrite <- !app_assoc).
      exact (addr_swap c _ _ _ _ Ha2 Hdl).
    + eexists. split; [|exact Hs']. specialize (Hnew (ChCel (re_content x0 (CImage (with_data im d)))) (a' ++ d)).
      replace ((a ++ a') ++ d ++ b) with (a ++ (a' ++ d) ++ b) by now rewrite <- !app_assoc. apply Hnew; [|now apply Hd].
      rewrite !zlen_app. lia.
  - rewrite Hfr, EG. f_equal. cbn [re_content cc_x cc_y]. rewrite <- Eo. f_equal.
    replace (at_origin (fc_origin fc) fc) with fc by now destruct fc. rewrite <- EY. now destruct sf.
  - assert (Hp0 : pics (zlen F1) x0 = [((Z.of_nat k, cc_layer_index x0), im)]).
    { unfold pics. rewrite Hcont. unfold zlen. now rewrite El. }
    rewrite Hp0 in EZ. rewrite EZ in En.
    assert (Ej : j = length Z1).
    { assert (En' : nth_error (image_cels (f_frames (af_file s))) (length Z1) = Some ((Z.of_nat k, cc_layer_index x0), im)).
      { rewrite EZ, nth_error_app2, Nat.sub_diag by lia. reflexivity. }
      rewrite <- EZ in En. now destruct (keys_unique c _ s Hc Hi Ha Hl _ _ _ _ _ En En'). }
    rewrite Him, Ei, EZ. unfold pics. cbn [re_content cc_content cc_layer_index]. rewrite !map_app. cbn [map app snd].
    rewrite Ej, <- (map_length snd Z1). now rewrite set_at_mid.
Qed.

Lemma place_changed c i s k sf m fc : cfg_ok c -> is_bytes i -> addressable c i -> load c i = Ok s ->
  nth_error (af_frames s) k = Some sf -> nth_error (sf_cels sf) m = Some fc ->
  exists a b, i = a ++ (les 2 (fst (fc_origin fc)) ++ les 2 (snd (fc_origin fc))) ++ b /\
    forall p q, i16 p -> i16 q ->
    exists s', load c (a ++ (les 2 p ++ les 2 q) ++ b) = Ok s' /\ same_outline s s' /\ af_images s' = af_images s /\
      af_frames s' = set_at k (with_cels sf (set_at m (at_origin (p, q) fc) (sf_cels sf))) (af_frames s).
Proof.
  intros Hc Hi Ha Hl Hk Hm. pose proof Hl as Hl'. apply (load_exactly c i s Hc Hi Ha) in Hl' as (raw & Hraw & Hs).
  destruct (loaded_frame c i s Hl k sf Hk) as (fr & Hfr & _ & _ & HF).
  destruct (Forall2_nth_r _ _ _ _ _ HF Hm) as (x & Hxm & Hsh).
  destruct (locate raw s k fr x Hs Hfr (nth_error_In _ _ Hxm)) as (F1 & rf & F2 & P & x0 & Q & A & B & Ef & El & Ec & HA & HB & ->).
  destruct (file_bytes _ raw F1 rf F2 P (ChCel x0) Q i Ef Ec Hraw) as (a & ex & b & -> & Hex & Hnew).
  destruct (chunk_place _ x0 ex Hex) as (_ & _ & H0 & a' & b' & -> & Hd).
  destruct (change raw s Hs F1 rf F2 P x0 Q A B Ef Ec HA HB H0) as (Z1 & Z2 & G1 & sf' & G2 & Y1 & fc' & Y2 & EZ & EG & EL & EY & Ey & Eo & Hch).
  assert (Esf : sf' = sf).
  { rewrite EG, nth_error_app2 in Hk by lia. replace (k - length G1)%nat with 0%nat in Hk by lia. now injection Hk. }
  subst sf'.
  assert (Em : m = length Y1).
  { assert (NoDup (map fc_layer_index (sf_cels sf))) as N.
    { assert (E : map fc_layer_index (sf_cels sf) = map cc_layer_index (filled fr)).
      { clear -HF. induction HF as [|x y l l' Hxy H IH]; [reflexivity|]. cbn. f_equal; [apply Hxy|exact IH]. }
      rewrite E. pose proof (parsed_wf c _ _ Hc Hi Ha (loaded_parse c _ s Hl)) as W. rewrite Forall_forall in W.
      pose proof (W fr (nth_error_In _ _ Hfr)) as Wf. destruct (filled_keys (fr_cels fr) 0) as [F _]; [|exact F].
      intros jj xx Hj. rewrite (Wf jj xx Hj). lia. }
    apply (proj1 (NoDup_nth_error (map fc_layer_index (sf_cels sf))) N).
    - apply nth_error_Some. rewrite nth_error_map, Hm. discriminate.
    - rewrite !nth_error_map, Hm, EY, nth_error_app2, Nat.sub_diag by lia. cbn. f_equal.
      destruct Hsh as (_ & E & _). rewrite E, Ey. reflexivity. }
  assert (fc' = fc). { rewrite EY, Em, nth_error_app2, Nat.sub_diag in Hm by lia. now injection Hm. }
  subst fc'. rewrite Eo. cbn [fst snd].
  exists (a ++ a'), (b' ++ b). split; [now rewrite <- !app_assoc|]. intros p q Hp Hq.
  destruct (Hch (re_place x0 p q)) as (s' & Hs' & Hso & Him & Hfs).
  { split; [reflexivity|]. now left. }
  exists s'. split; [|split; [exact Hso|split]].
  - assert (EE : zlen (les 2 p ++ les 2 q) = zlen (les 2 (cc_x x0) ++ les 2 (cc_y x0))).
    { rewrite !zlen_app. unfold les. rewrite !zlen_le. reflexivity. }
    assert (EA : a ++ (a' ++ (les 2 (cc_x x0) ++ les 2 (cc_y x0)) ++ b') ++ b = (a ++ a') ++ (les 2 (cc_x x0) ++ les 2 (cc_y x0)) ++ b' ++ b)
      by now rewrite <- !app_assoc.
    apply load_exactly; [exact Hc| | |].
    + rewrite EA in Hi. apply (is_bytes_swap _ _ _ _ Hi). unfold is_bytes. apply Forall_app.
      split; unfold les; apply is_bytes_le.
    + rewrite EA in Ha. exact (addr_swap c _ _ _ _ Ha EE).
    + eexists. split; [|exact Hs']. specialize (Hnew (ChCel (re_place x0 p q)) (a' ++ (les 2 p ++ les 2 q) ++ b')).
      replace ((a ++ a') ++ (les 2 p ++ les 2 q) ++ b' ++ b) with (a ++ (a' ++ (les 2 p ++ les 2 q) ++ b') ++ b) by now rewrite <- !app_assoc.
      apply Hnew; [|now apply Hd]. now apply zlen_swap.
  - assert (Ei : af_images s = map snd (image_cels (f_frames (af_file s)))) by apply Hs. rewrite Him, Ei, EZ. reflexivity.
  - rewrite Hfs. cbn [re_place cc_x cc_y]. rewrite EG at 1. rewrite <- El, <- EL, set_at_mid. rewrite EY, Em, set_at_mid. reflexivity.
Qed.
