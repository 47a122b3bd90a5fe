(** Files that end after some of their frames (C131). *)
From Verif.Model Require Import Loader.
From Verif.Spec Require Import Bytes Format FileSpec LoaderSpec ImageSpec RenderSpec Published Edits Shortened.
From Verif.Proofs Require Import ParseLib FileFacts FileProps FileFinal LoaderFacts LoaderProps PublishedProps EditFacts EditProps BinaryProps.

Lemma links_found fs more k x : Forall wf_frame (fs ++ more) -> In (k, x) (file_cels fs) -> cel_problem (fs ++ more) (k, x) = [] ->
  (forall p, cc_content x = CLinked p -> p < zlen fs) -> cel_problem fs (k, x) = [].
Proof.
  intros W Hin H HL. unfold cel_problem in *. destruct (cc_content x) as [|p| |] eqn:E; try assumption.
  destruct (existsb _ (image_cels (fs ++ more))) eqn:Ex; [|discriminate]. clear H.
  apply (existsb_key _ (p, cc_layer_index x)) in Ex as [im Hp]. apply image_cels_in_file in Hp as (j & fr & y & [= -> Ey] & Hj & Hy & Hc).
  specialize (HL (Z.of_nat j) eq_refl). unfold zlen in HL. rewrite nth_error_app1 in Hj by lia.
  assert (Q : existsb (fun q => (fst (fst q) =? Z.of_nat j) && (snd (fst q) =? cc_layer_index x)) (image_cels fs) = true).
  { apply existsb_exists. exists ((Z.of_nat j, cc_layer_index y), im). split.
    - unfold image_cels. apply in_flat_map. exists (Z.of_nat j, y). split.
      + apply file_cels_in. split; [lia|]. rewrite Nat2Z.id. eauto.
      + rewrite Hc. now left.
    - cbn. rewrite Z.eqb_refl, Ey, Z.eqb_refl. reflexivity. }
  now rewrite Q.
Qed.
Lemma links_missing fs k x p : cc_content x = CLinked p -> zlen fs <= p -> cel_problem fs (k, x) = [LInvalidLinkedCel k (cc_layer_index x)].
Proof.
  intros E Hp. unfold cel_problem. rewrite E. destruct (existsb _ _) eqn:Ex; [|reflexivity].
  apply (existsb_key _ (p, cc_layer_index x)) in Ex as [im Hin]. apply image_cels_in_file in Hin as (j & fr & y & [= -> Ey] & Hj & _).
  assert (j < length fs)%nat by (apply nth_error_Some; congruence). unfold zlen in Hp. lia.
Qed.

Section Cut.
Context (c : cfg) (i t : bytes) (raw raw' : raw_file) (s' : ase_file).
Context (Hc : cfg_ok c) (Hi : is_bytes (i ++ t)) (Ha : addressable c (i ++ t)).
Context (Hr : parse_raw_file c i = Ok raw) (Hr' : parse_raw_file c (i ++ t) = Ok raw') (Hco : continued raw raw').
Context (Hl : load c (i ++ t) = Ok s').
Let n := length (rw_frames raw).

Lemma cut_bytes : is_bytes i /\ addressable c i.
Proof.
  split; [now apply Forall_app in Hi|]. unfold addressable in *. rewrite zlen_app in Ha. pose proof (zlen_nonneg t). lia.
Qed.
Lemma cut_header : rw_header raw' = rw_header raw.
Proof. destruct (proj1 (raw_extension c Hc i t raw raw' Hi Ha Hr) Hr') as (more & E & _). exact E. Qed.
Lemma cut_same : same_picture_header (rw_header raw) (rw_header raw').
Proof. rewrite cut_header. unfold same_picture_header. auto. Qed.
Lemma cut_parse : exists f fs, parse_file c i = Ok f /\ length (f_frames f) = n /\ f_frames (af_file s') = f_frames f ++ fs.
Proof.
  destruct cut_bytes as [Hi1 Ha1]. destruct (continued_parts raw raw' Hco cut_same) as (EL & EP & Parts).
  destruct (parse_file_ok c _ _ Hc Hi Ha (loaded_parse c _ s' Hl)) as (raw1 & pal & _ & Hr1 & Hpal & Ef & HC).
  assert (raw1 = raw') as -> by congruence. destruct (Parts pal pal) as (fs & _ & _ & Efr & _).
  exists (file_of raw pal), fs. split; [|split].
  - rewrite parse_file_eq by assumption. rewrite Hr. cbn [bind]. unfold spec_outcome. rewrite <- EP, Hpal.
    destruct (find _ _) as [x|] eqn:E; [|reflexivity]. exfalso. apply find_some in E as [Hin E].
    destruct Hco as (more & Hf & _). unfold frame_cels in HC. rewrite Hf, flat_map_app in HC. apply Forall_app in HC as [HC _].
    rewrite Forall_forall in HC. specialize (HC x Hin). unfold layer_count in *. rewrite EL in HC. unfold bad_cel in E. lia.
  - cbn [file_of f_frames]. apply map_length.
  - rewrite Ef. exact Efr.
Qed.
Lemma cut_outcome :
  (self_contained n (f_frames (af_file s')) -> exists s, load c i = Ok s) /\
  (~ self_contained n (f_frames (af_file s')) -> exists k l, load c i = Err (LInvalidLinkedCel k l)).
Proof.
  destruct cut_parse as (f & fs & Hp & En & Efr). pose proof (loaded_parse c _ s' Hl) as Hp'. pose proof (parsed_wf c _ _ Hc Hi Ha Hp') as W.
  assert (P : problems (f_frames f ++ fs) = []).
  { rewrite <- Efr. pose proof (build_sprite_outcome (af_file s')) as H. rewrite (loaded_build c _ s' Hl) in H.
    destruct (problems _); [reflexivity|discriminate]. }
  assert (P' : forall k x, In (k, x) (file_cels (f_frames f)) -> cel_problem (f_frames f ++ fs) (k, x) = []).
  { intros k x Hin. apply (proj1 (flat_map_nil _ _) P). apply file_cels_in in Hin as (H0 & fr & Hfr & Hx). apply file_cels_in.
    split; [exact H0|]. exists fr. split; [|exact Hx]. rewrite nth_error_app1; [exact Hfr|]. apply nth_error_Some. congruence. }
  assert (B : forall k x p, In (k, x) (file_cels (f_frames f)) -> cc_content x = CLinked p ->
    exists j fr, (j < n)%nat /\ nth_error (f_frames (af_file s')) j = Some fr /\ In (Some x) (fr_cels fr)).
  { intros k x p Hin E. apply file_cels_in in Hin as (H0 & fr & Hfr & Hx). apply filled_in in Hx as (j & Hj).
    assert (Z.to_nat k < length (f_frames f))%nat by (apply nth_error_Some; congruence).
    exists (Z.to_nat k), fr. rewrite <- En. split; [assumption|]. rewrite Efr, nth_error_app1 by assumption. split; [exact Hfr|eapply nth_error_In, Hj]. }
  assert (L : forall e, load c i = Err e <-> build_sprite f = Err e).
  { intro e. unfold load. rewrite Hp. cbn [map_err bind]. reflexivity. }
  assert (L' : forall s, load c i = Ok s <-> build_sprite f = Ok s).
  { intro s. unfold load. rewrite Hp. cbn [map_err bind]. reflexivity. }
  pose proof (build_sprite_outcome f) as O. split.
  - intro HS. assert (Q : problems (f_frames f) = []).
    { apply flat_map_nil. intros [k x] Hin. refine (links_found _ fs k x _ Hin (P' k x Hin) _).
      - rewrite <- Efr. exact W.
      - intros p E. destruct (B k x p Hin E) as (j & fr & Hj & Hfr & Hx). pose proof (HS j fr x p Hj Hfr Hx E). unfold zlen. lia. }
    rewrite Q in O. destruct O as [s O]. exists s. now apply L'.
  - intro HS. destruct (problems (f_frames f)) as [|e es] eqn:Q.
    + exfalso. apply HS. intros k fr x p Hk Hfr Hx E. destruct (Z.lt_ge_cases p (Z.of_nat n)) as [|Hge]; [assumption|]. exfalso.
      rewrite Efr, nth_error_app1 in Hfr by lia.
      assert (Hin : In (Z.of_nat k, x) (file_cels (f_frames f))).
      { apply file_cels_in. split; [lia|]. exists fr. rewrite Nat2Z.id. split; [exact Hfr|]. apply filled_in. now apply In_nth_error. }
      pose proof (proj1 (flat_map_nil _ _) Q _ Hin) as N. rewrite (links_missing _ _ _ p E) in N; [discriminate|]. unfold zlen. lia.
    + assert (Hin : In e (problems (f_frames f))) by (rewrite Q; now left). unfold problems in Hin. apply in_flat_map in Hin as ([k x] & Hkx & He).
      pose proof (P' k x Hkx) as N. unfold cel_problem in He, N. destruct (cc_content x); try contradiction; try discriminate N.
      destruct (existsb _ (image_cels (f_frames f))); [contradiction|]. destruct He as [<-|[]]. do 2 eexists. apply L. exact O.
Qed.
Lemma cut_frames s : load c i = Ok s ->
  api_size s = api_size s' /\ api_layers s = api_layers s' /\ zlen (api_frames s) = Z.of_nat n /\
  (exists l, api_frames s' = api_frames s ++ l) /\ (exists l, api_tags s' = api_tags s ++ l) /\
  (exists l, api_slices s' = api_slices s ++ l) /\
  forall inflate,
    (forall j target, 0 <= j < api_image_count s -> load_image c inflate s j target = load_image c inflate s' j target) /\
    (forall k target sel, 0 <= k < zlen (api_frames s) ->
       render_frame c inflate s k target sel = render_frame c inflate s' k target sel).
Proof.
  intro Hs. destruct cut_bytes as [Hi1 Ha1].
  destruct (frames_continue c i (i ++ t) raw raw' s s' Hc Hi1 Ha1 Hi Ha Hr Hr' cut_same Hco Hs Hl) as (A & B & C & D & E & F).
  split; [exact A|]. split; [exact B|]. split.
  { destruct (parse_file_ok c _ _ Hc Hi1 Ha1 (loaded_parse c _ s Hs)) as (raw1 & pal & _ & Hr1 & Hpal & Ef & HC). assert (raw1 = raw) as -> by congruence.
    destruct (build_sprite_ok _ _ (loaded_build c i s Hs)) as (_ & _ & _ & _ & FR). apply Forall2_length in FR.
    rewrite numbered_length in FR. rewrite Ef in FR. cbn [file_of f_frames] in FR. rewrite map_length in FR. unfold api_frames, zlen. subst n. lia. }
  do 3 (split; [assumption|]). intro inflate. destruct (F inflate) as [F1 F2]. split; intros; symmetry; auto.
Qed.
End Cut.
