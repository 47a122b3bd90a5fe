(** Changes to the chunks of a frame that change nothing (C72, C73). *)
From Verif.Model Require Import Loader.
From Verif.Spec Require Import Bytes Format FileSpec LoaderSpec ImageSpec RenderSpec Published Edits.
From Verif.Proofs Require Import ParseLib FileFacts FileProps LoaderFacts PublishedProps.

(** ** What a chunk with its user data contributes *)
Section Projection.
Context {A : Type} (g : chunk -> list user_data_chunk -> list A).
Context (Hud : forall x fs, is_user_data x -> g x fs = []).
Definition proj (cs : list chunk) : list A := flat_map (fun '(x, rest) => g x (followers rest)) (suffixes cs).

Lemma followers_app a b b' : followers b = followers b' -> followers (a ++ b) = followers (a ++ b').
Proof. intro H. induction a as [|x a IH]; [exact H|]. destruct x; cbn; try reflexivity. now rewrite IH. Qed.
Lemma followers_fresh b : fresh_start b -> followers b = [].
Proof. destruct b as [|x b]; [reflexivity|]. destruct x; cbn; try reflexivity. intro H. now destruct H. Qed.
Lemma proj_app a b b' : followers b = followers b' -> proj b = proj b' -> proj (a ++ b) = proj (a ++ b').
Proof.
  intros H1 H2. unfold proj in *. induction a as [|x a IH]; [exact H2|]. cbn [app suffixes flat_map].
  now rewrite (followers_app a b b' H1), IH.
Qed.
(** One block *)
Definition user_datas (us : list chunk) : list user_data_chunk :=
  flat_map (fun x => match x with ChUserData u => [u] | _ => [] end) us.
Lemma followers_user us b : Forall is_user_data us -> fresh_start b -> followers (us ++ b) = user_datas us.
Proof.
  intros H Hb. induction H as [|u us Hu H IH]; cbn; [now apply followers_fresh|].
  destruct u; try contradiction. cbn. now rewrite IH.
Qed.
Lemma proj_user us b : Forall is_user_data us -> proj (us ++ b) = proj b.
Proof.
  unfold proj. induction 1 as [|u us Hu H IH]; [reflexivity|]. cbn [app suffixes flat_map]. now rewrite Hud, IH.
Qed.
Lemma proj_block x us b : block x us -> fresh_start b -> proj ((x :: us) ++ b) = g x (user_datas us) ++ proj b.
Proof.
  intros [Hx Hu] Hb. cbn [app]. unfold proj. cbn [suffixes flat_map].
  rewrite followers_user by assumption. fold (proj (us ++ b)). now rewrite proj_user.
Qed.
Lemma block_fresh x us b : block x us -> fresh_start ((x :: us) ++ b).
Proof. now intros [H _]. Qed.

Lemma proj_padded cs cs' : (forall x fs, role_of x = Nothing -> g x fs = []) -> padded cs cs' -> proj cs' = proj cs.
Proof.
  intros Hg H. induction H as [|a x us b H IH Hr Hb Hf]; [reflexivity|]. rewrite <- IH. apply proj_app.
  - now rewrite (followers_fresh b Hf), (followers_fresh _ (block_fresh x us b Hb)).
  - rewrite proj_block by assumption. now rewrite Hg.
Qed.
Lemma proj_reordered cs cs' ro : (forall x fs, role_of x <> ro -> g x fs = []) -> reordered cs cs' -> proj cs' = proj cs.
Proof.
  intros Hg H. induction H as [|a x us y vs b H IH Hr Hx Hy Hf]; [reflexivity|]. rewrite <- IH. apply proj_app.
  - now rewrite !followers_fresh by (apply block_fresh; assumption).
  - rewrite !proj_block by (try assumption; apply block_fresh; assumption).
    assert (E : g x (user_datas us) = [] \/ g y (user_datas vs) = []).
    { destruct (role_of x) eqn:Ex, (role_of y) eqn:Ey, ro; try contradiction;
        first [left; apply Hg; congruence|right; apply Hg; congruence]. }
    destruct E as [-> | ->]; cbn [app]; now rewrite ?app_nil_r.
Qed.
End Projection.

(** ** The parts of a file *)
Definition g_layer x (us : list user_data_chunk) := match x with ChLayer l => [layer_with l (nth_error us 0)] | _ => [] end.
Definition g_cel x (us : list user_data_chunk) := match x with ChCel l => [cel_with l (nth_error us 0)] | _ => [] end.
Definition g_slice x (us : list user_data_chunk) := match x with ChSlice l => [slice_with l (nth_error us 0)] | _ => [] end.
Definition g_tags x (us : list user_data_chunk) := match x with ChTags t => give (tc_tags t) us | _ => [] end.
Definition g_data x (us : list user_data_chunk) := if is_palette_chunk x then firstn 1 us else [].
Definition g_new (x : chunk) (us : list user_data_chunk) := match x with ChPalette p => [p] | _ => [] end.
Definition g_0004 (x : chunk) (us : list user_data_chunk) := match x with ChPalette0004 p => [p] | _ => [] end.
Definition g_0011 (x : chunk) (us : list user_data_chunk) := match x with ChPalette0011 p => [p] | _ => [] end.

Lemma proj_plain {A} (g : chunk -> list A) cs : flat_map g cs = proj (fun x _ => g x) cs.
Proof. unfold proj. induction cs as [|x cs IH]; [reflexivity|]. cbn. now rewrite IH. Qed.

(** Two files with the same parts *)
Definition same_parts (cs cs' : list chunk) : Prop :=
  spec_layers cs = spec_layers cs' /\ spec_cels cs = spec_cels cs' /\ spec_slices cs = spec_slices cs' /\
  spec_tags cs = spec_tags cs' /\ spec_sprite_data cs = spec_sprite_data cs' /\
  flat_map (fun x => g_new x []) cs = flat_map (fun x => g_new x []) cs' /\
  flat_map (fun x => g_0004 x []) cs = flat_map (fun x => g_0004 x []) cs' /\
  flat_map (fun x => g_0011 x []) cs = flat_map (fun x => g_0011 x []) cs'.

Lemma same_parts_of cs cs' : (forall A (g : chunk -> list user_data_chunk -> list A) ro, ro <> Nothing ->
    (forall x fs, role_of x <> ro -> g x fs = []) -> proj g cs' = proj g cs) -> same_parts cs cs'.
Proof.
  intro H. unfold same_parts.
  split; [symmetry; apply (H _ g_layer Layers); [discriminate|]; intros []; cbn; congruence|].
  split; [symmetry; apply (H _ g_cel Cels); [discriminate|]; intros []; cbn; congruence|].
  split; [symmetry; apply (H _ g_slice Slices); [discriminate|]; intros []; cbn; congruence|].
  split; [symmetry; apply (H _ g_tags Tags); [discriminate|]; intros []; cbn; congruence|].
  split; [unfold spec_sprite_data; f_equal; symmetry; apply (H _ g_data Colours); [discriminate|]; intros []; cbn; congruence|].
  rewrite !proj_plain.
  split; [symmetry; apply (H _ g_new Colours); [discriminate|]; intros []; cbn; congruence|].
  split; [symmetry; apply (H _ g_0004 Colours); [discriminate|]; intros []; cbn; congruence|].
  symmetry; apply (H _ g_0011 Colours); [discriminate|]; intros []; cbn; congruence.
Qed.
Lemma not_role_user ro x : ro <> Nothing -> is_user_data x -> role_of x <> ro.
Proof. destruct x; cbn; try contradiction. congruence. Qed.
Lemma padded_parts cs cs' : padded cs cs' -> same_parts cs cs'.
Proof.
  intro H. apply same_parts_of. intros A g ro Hro Hg. apply proj_padded; [| |exact H].
  - intros x fs Hx. apply Hg. now apply not_role_user.
  - intros x fs Hx. apply Hg. congruence.
Qed.
Lemma reordered_parts cs cs' : reordered cs cs' -> same_parts cs cs'.
Proof.
  intro H. apply same_parts_of. intros A g ro Hro Hg. apply (proj_reordered g) with (ro := ro); [|exact Hg|exact H].
  intros x fs Hx. apply Hg. now apply not_role_user.
Qed.

(** ** Whole files *)
Lemma flat_map_Forall2 {A B} (P : A -> A -> Prop) (f : A -> list B) l l' :
  (forall a a', P a a' -> f a = f a') -> Forall2 P l l' -> flat_map f l = flat_map f l'.
Proof. intros H HF. induction HF as [|a a' l l' Ha HF IH]; [reflexivity|]. cbn. now rewrite (H _ _ Ha), IH. Qed.
Lemma map_Forall2 {A B} (P : A -> A -> Prop) (f : A -> B) l l' :
  (forall a a', P a a' -> f a = f a') -> Forall2 P l l' -> map f l = map f l'.
Proof. intros H HF. induction HF as [|a a' l l' Ha HF IH]; [reflexivity|]. cbn. now rewrite (H _ _ Ha), IH. Qed.
Lemma flat_map_flat_map {A B C} (f : B -> list C) (g : A -> list B) l :
  flat_map f (flat_map g l) = flat_map (fun a => flat_map f (g a)) l.
Proof. induction l as [|a l IH]; [reflexivity|]. cbn. now rewrite flat_map_app, IH. Qed.

Definition with_header (f : file) (h : header) : file :=
  {| f_header := h; f_palette := f_palette f; f_layers := f_layers f; f_frames := f_frames f; f_tags := f_tags f;
     f_slices := f_slices f; f_user_data := f_user_data f |}.

Section Parts.
Context (raw raw' : raw_file).
Context (Hh : same_picture_header (rw_header raw) (rw_header raw')).
Context (HF : frames_by same_parts raw raw').

Lemma parts_layers : spec_all_layers raw = spec_all_layers raw'.
Proof. unfold spec_all_layers. eapply flat_map_Forall2; [|exact HF]. intros a a' (_ & H & _). exact H. Qed.
Lemma parts_count : layer_count raw = layer_count raw'.
Proof. unfold layer_count. now rewrite parts_layers. Qed.
Lemma parts_cels : frame_cels raw = frame_cels raw'.
Proof. unfold frame_cels. eapply flat_map_Forall2; [|exact HF]. intros a a' (_ & _ & H & _). exact H. Qed.
Lemma parts_palette : palette_of raw = palette_of raw'.
Proof.
  unfold palette_of. destruct Hh as (_ & _ & -> & ->).
  replace (spec_palette (h_transparent_index (rw_header raw')) (rw_frames raw'))
    with (spec_palette (h_transparent_index (rw_header raw')) (rw_frames raw)); [reflexivity|].
  unfold spec_palette. replace (spec_writes (rw_frames raw')) with (spec_writes (rw_frames raw)); [reflexivity|].
  unfold spec_writes, new_palettes, palettes_0004, palettes_0011, all_chunks. rewrite !flat_map_flat_map.
  rewrite (flat_map_Forall2 _ (fun fr => flat_map (fun x => match x with ChPalette p => [p] | _ => [] end) (rf_chunks fr)) _ _
             (fun a a' H => proj1 (proj2 (proj2 (proj2 (proj2 (proj2 (proj2 H))))))) HF).
  rewrite (flat_map_Forall2 _ (fun fr => flat_map (fun x => match x with ChPalette0004 p => [p] | _ => [] end) (rf_chunks fr)) _ _
             (fun a a' H => proj1 (proj2 (proj2 (proj2 (proj2 (proj2 (proj2 (proj2 H)))))))) HF).
  rewrite (flat_map_Forall2 _ (fun fr => flat_map (fun x => match x with ChPalette0011 p => [p] | _ => [] end) (rf_chunks fr)) _ _
             (fun a a' H => proj2 (proj2 (proj2 (proj2 (proj2 (proj2 (proj2 (proj2 H)))))))) HF).
  reflexivity.
Qed.
Lemma parts_file pal : file_of raw' pal = with_header (file_of raw pal) (rw_header raw').
Proof.
  unfold file_of, with_header. cbn. rewrite <- parts_layers, <- parts_count. f_equal.
  - symmetry. eapply map_Forall2; [|exact HF]. intros a a' (H1 & _ & H2 & _). now rewrite H1, H2.
  - symmetry. eapply flat_map_Forall2; [|exact HF]. now intros a a' (_ & _ & _ & _ & H & _).
  - symmetry. eapply flat_map_Forall2; [|exact HF]. now intros a a' (_ & _ & _ & H & _).
  - pose proof HF as G. unfold frames_by in G. destruct (rw_frames raw), (rw_frames raw'); inversion G as [|? ? ? ? (_ & _ & _ & _ & _ & H & _) _]; subst; [reflexivity|]. symmetry. exact H.
Qed.
Lemma parts_outcome : spec_outcome raw' =
  match spec_outcome raw with Ok f => Ok (with_header f (rw_header raw')) | Err e => Err e | Panic p => Panic p end.
Proof.
  unfold spec_outcome. rewrite <- parts_palette, <- parts_count, <- parts_cels.
  destruct (palette_of raw) as [pal|?|?]; try reflexivity. destruct (find _ _) as [x|].
  - unfold cel_failure. now destruct (_ <? _).
  - now rewrite parts_file.
Qed.
End Parts.

Lemma outcome_header raw f : spec_outcome raw = Ok f -> f_header f = rw_header raw.
Proof. intro H. apply spec_outcome_ok in H as (pal & _ & -> & _). reflexivity. Qed.

Lemma same_parts_load c i i' raw raw' : cfg_ok c -> is_bytes i -> addressable c i -> is_bytes i' -> addressable c i' ->
  parse_raw_file c i = Ok raw -> parse_raw_file c i' = Ok raw' ->
  same_picture_header (rw_header raw) (rw_header raw') -> frames_by same_parts raw raw' ->
  same_outcome c (load c i) (load c i').
Proof.
  intros Hc Hi Ha Hi' Ha' Hr Hr' Hh HF. unfold load.
  rewrite (parse_file_eq c i Hc Hi Ha), (parse_file_eq c i' Hc Hi' Ha'), Hr, Hr'. cbn [bind].
  rewrite (parts_outcome raw raw' Hh HF). destruct (spec_outcome raw) as [f|e|p] eqn:E; cbn [map_err bind]; try reflexivity.
  apply outcome_header in E. unfold build_sprite. change (f_frames (with_header f (rw_header raw'))) with (f_frames f).
  destruct (collect_images (f_frames f)) as [v m]. destruct (map_out _ _) as [frames|e|p]; cbn [bind]; try reflexivity.
  unfold same_outcome, same_sprite. destruct Hh as (Hw & Hy & Hd & Ht).
  split; [unfold api_size; cbn; congruence|]. repeat (split; [reflexivity|]). intro inflate. split.
  - intros j target. apply same_load_image; try reflexivity. cbn. congruence.
  - intros k target sel. apply same_render; try reflexivity. repeat split; cbn; congruence.
Qed.

Lemma frames_by_impl (R R' : list chunk -> list chunk -> Prop) raw raw' :
  (forall a b, R a b -> R' a b) -> frames_by R raw raw' -> frames_by R' raw raw'.
Proof.
  unfold frames_by. intros H HF. induction HF as [|a b l l' [H1 H2] HF IH]; constructor; auto.
Qed.
Lemma padded_load c i i' raw raw' : cfg_ok c -> is_bytes i -> addressable c i -> is_bytes i' -> addressable c i' ->
  parse_raw_file c i = Ok raw -> parse_raw_file c i' = Ok raw' ->
  same_picture_header (rw_header raw) (rw_header raw') -> frames_by padded raw raw' ->
  same_outcome c (load c i) (load c i').
Proof.
  intros Hc Hi Ha Hi' Ha' Hr Hr' Hh HF. eapply same_parts_load; try eassumption.
  eapply frames_by_impl; [exact padded_parts|exact HF].
Qed.
Lemma reordered_load c i i' raw raw' : cfg_ok c -> is_bytes i -> addressable c i -> is_bytes i' -> addressable c i' ->
  parse_raw_file c i = Ok raw -> parse_raw_file c i' = Ok raw' ->
  same_picture_header (rw_header raw) (rw_header raw') -> frames_by reordered raw raw' ->
  same_outcome c (load c i) (load c i').
Proof.
  intros Hc Hi Ha Hi' Ha' Hr Hr' Hh HF. eapply same_parts_load; try eassumption.
  eapply frames_by_impl; [exact reordered_parts|exact HF].
Qed.
