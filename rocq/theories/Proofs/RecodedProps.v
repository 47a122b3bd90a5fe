(** The same colours in other palette chunks (C130). *)
From Verif.Model Require Import Loader.
From Verif.Spec Require Import Bytes Format Encode FileSpec LoaderSpec ImageSpec RenderSpec Published Edits Recoded.
From Verif.Proofs Require Import ParseLib FileFacts FileProps FileFinal PaletteFacts LoaderFacts LoaderProps EncodeFacts EncodeProps WriterFinal PublishedProps EditFacts EditProps RenderProps.

(** ** Files that differ in palette chunks *)
Definition same_but_colours (cs cs' : list chunk) : Prop :=
  spec_layers cs = spec_layers cs' /\ spec_cels cs = spec_cels cs' /\ spec_slices cs = spec_slices cs' /\
  spec_tags cs = spec_tags cs' /\ spec_sprite_data cs = spec_sprite_data cs'.
Lemma recoded_followers cs cs' : Forall2 recoded cs cs' -> followers cs = followers cs'.
Proof.
  induction 1 as [|x y cs cs' Hx H IH]; [reflexivity|]. destruct Hx as [<-|[Hx Hy]].
  - destruct x; try reflexivity. cbn. now rewrite IH.
  - destruct x; try discriminate; destruct y; try discriminate; reflexivity.
Qed.
Lemma recoded_proj {A} (g : chunk -> list user_data_chunk -> list A) cs cs' :
  (forall x y us, role_of x = Colours -> role_of y = Colours -> g x us = g y us) -> Forall2 recoded cs cs' -> proj g cs = proj g cs'.
Proof.
  intros Hg H. unfold proj. induction H as [|x y cs cs' Hx H IH]; [reflexivity|]. cbn [suffixes flat_map].
  rewrite IH, (recoded_followers _ _ H). f_equal. destruct Hx as [<-|[Hx Hy]]; [reflexivity|]. now apply Hg.
Qed.
Lemma recoded_parts cs cs' : Forall2 recoded cs cs' -> same_but_colours cs cs'.
Proof.
  intro H. unfold same_but_colours.
  split; [apply (recoded_proj g_layer); [|exact H]; intros [] []; cbn; congruence|].
  split; [apply (recoded_proj g_cel); [|exact H]; intros [] []; cbn; congruence|].
  split; [apply (recoded_proj g_slice); [|exact H]; intros [] []; cbn; congruence|].
  split; [apply (recoded_proj g_tags); [|exact H]; intros [] []; cbn; congruence|].
  unfold spec_sprite_data. f_equal. apply (recoded_proj g_data); [|exact H]. intros [] []; cbn; congruence.
Qed.

Section Parts.
Context (raw raw' : raw_file).
Context (HF : frames_by same_but_colours raw raw').
Lemma but_layers : spec_all_layers raw = spec_all_layers raw'.
Proof. unfold spec_all_layers. eapply flat_map_Forall2; [|exact HF]. intros a a' (_ & H & _). exact H. Qed.
Lemma but_count : layer_count raw = layer_count raw'.
Proof. unfold layer_count. now rewrite but_layers. Qed.
Lemma but_cels : frame_cels raw = frame_cels raw'.
Proof. unfold frame_cels. eapply flat_map_Forall2; [|exact HF]. intros a a' (_ & _ & H & _). exact H. Qed.
Lemma but_file pal : file_of raw' pal = with_header (file_of raw pal) (rw_header raw').
Proof.
  unfold file_of, with_header. cbn. rewrite <- but_layers, <- but_count. f_equal.
  - symmetry. eapply map_Forall2; [|exact HF]. intros a a' (H1 & _ & H2 & _). now rewrite H1, H2.
  - symmetry. eapply flat_map_Forall2; [|exact HF]. now intros a a' (_ & _ & _ & _ & H & _).
  - symmetry. eapply flat_map_Forall2; [|exact HF]. now intros a a' (_ & _ & _ & H & _).
  - pose proof HF as G. unfold frames_by in G.
    destruct (rw_frames raw), (rw_frames raw'); inversion G as [|? ? ? ? (_ & _ & _ & _ & _ & H) _]; subst; [reflexivity|]. symmetry. exact H.
Qed.
Lemma but_outcome : palette_of raw = palette_of raw' -> spec_outcome raw' =
  match spec_outcome raw with Ok f => Ok (with_header f (rw_header raw')) | Err e => Err e | Panic p => Panic p end.
Proof.
  intro Hp. unfold spec_outcome. rewrite <- Hp, <- but_count, <- but_cels.
  destruct (palette_of raw) as [pal|?|?]; try reflexivity. destruct (find _ _) as [x|].
  - unfold cel_failure. now destruct (_ <? _).
  - now rewrite but_file.
Qed.
End Parts.

Lemma recoded_load c i i' raw raw' : cfg_ok c -> is_bytes i -> addressable c i -> is_bytes i' -> addressable c i' ->
  parse_raw_file c i = Ok raw -> parse_raw_file c i' = Ok raw' ->
  same_picture_header (rw_header raw) (rw_header raw') -> frames_by (Forall2 recoded) raw raw' -> palette_of raw = palette_of raw' ->
  same_outcome c (load c i) (load c i').
Proof.
  intros Hc Hi Ha Hi' Ha' Hr Hr' Hh HF Hp. unfold load.
  rewrite (parse_file_eq c i Hc Hi Ha), (parse_file_eq c i' Hc Hi' Ha'), Hr, Hr'. cbn [bind].
  rewrite (but_outcome raw raw' (frames_by_impl _ _ _ _ recoded_parts HF) Hp).
  destruct (spec_outcome raw) as [f|e|p] eqn:E; cbn [map_err bind]; try reflexivity.
  apply outcome_header in E. unfold build_sprite. change (f_frames (with_header f (rw_header raw'))) with (f_frames f).
  destruct (collect_images (f_frames f)) as [v m]. destruct (map_out _ _) as [frames|e|p]; cbn [bind]; try reflexivity.
  unfold same_outcome, same_sprite. destruct Hh as (Hw & Hy & Hd & Ht).
  split; [unfold api_size; cbn; congruence|]. repeat (split; [reflexivity|]). intro inflate. split.
  - intros j target. apply same_load_image; try reflexivity. cbn. congruence.
  - intros k target sel. apply same_render; try reflexivity. repeat split; cbn; congruence.
Qed.

(** Old palette chunks beside a new one are ignored. *)
Lemma old_recoded_chunk x y : old_recoded x y -> recoded x y.
Proof. intros [->|[Hx Hy]]; [now left|]. right. destruct x; try contradiction; destruct y; try contradiction; split; reflexivity. Qed.
Lemma Forall2_of {A B} (P Q : A -> B -> Prop) l l' : (forall a b, P a b -> Q a b) -> Forall2 P l l' -> Forall2 Q l l'.
Proof. intros H. induction 1; constructor; auto. Qed.
Lemma old_recoded_new raw raw' : frames_by (Forall2 old_recoded) raw raw' -> new_palettes (rw_frames raw) = new_palettes (rw_frames raw').
Proof.
  intro H. unfold new_palettes, all_chunks. rewrite !EditFacts.flat_map_flat_map. eapply flat_map_Forall2; [|exact H].
  intros a a' [_ HF]. cbn beta in HF. induction HF as [|x y l l' Hx HF IH]; [reflexivity|]. cbn [flat_map]. rewrite IH. f_equal.
  destruct Hx as [->|[Hx Hy]]; [reflexivity|]. destruct x; try contradiction; destruct y; try contradiction; reflexivity.
Qed.
Lemma old_ignored c i i' raw raw' : cfg_ok c -> is_bytes i -> addressable c i -> is_bytes i' -> addressable c i' ->
  parse_raw_file c i = Ok raw -> parse_raw_file c i' = Ok raw' ->
  same_picture_header (rw_header raw) (rw_header raw') -> frames_by (Forall2 old_recoded) raw raw' -> new_palettes (rw_frames raw) <> [] ->
  same_outcome c (load c i) (load c i').
Proof.
  intros Hc Hi Ha Hi' Ha' Hr Hr' Hh HF Hn. eapply recoded_load; try eassumption.
  - eapply frames_by_impl; [|exact HF]. intros a b. apply Forall2_of. exact old_recoded_chunk.
  - unfold palette_of. destruct Hh as (_ & _ & -> & ->). unfold spec_palette, spec_writes.
    rewrite <- (old_recoded_new _ _ HF). destruct (new_palettes (rw_frames raw)); [contradiction|]. reflexivity.
Qed.

(** ** One chunk for all colours *)
Lemma assigned_app a b k : assigned (a ++ b) k = if existsb (fun w => fst w =? k) b then assigned b k else assigned a k.
Proof.
  induction b as [|[j x] b IH] using rev_ind; [now rewrite app_nil_r|].
  rewrite app_assoc, !assigned_snoc, IH, existsb_app. cbn [existsb fst]. rewrite orb_false_r.
  destruct (j =? k); [now rewrite orb_true_r|]. now rewrite orb_false_r.
Qed.
Lemma assigned_times ws k n : assigned (concat (repeat ws (S n))) k = assigned ws k.
Proof.
  induction n as [|n IH]; [cbn; now rewrite app_nil_r|]. change (concat (repeat ws (S (S n)))) with (ws ++ concat (repeat ws (S n))).
  rewrite assigned_app, IH. now destruct (existsb _ _).
Qed.

(** What packets of single colours write *)
Fixpoint marks (t k : Z) (pal : list color) : list (Z * color) :=
  match pal with
  | [] => []
  | x :: pal' =>
      (if (k =? t) || (alpha x =? 255) then [(k, {| red := red x; green := green x; blue := blue x; alpha := 255 |})] else []) ++
      marks t (k + 1) pal'
  end.
Lemma packets_write t pal : forall skip k, k + zlen pal <= 256 ->
  old_writes (k - skip) (packets t skip k pal) = Some (marks t k pal).
Proof.
  induction pal as [|x pal IH]; intros skip k Hk; [reflexivity|]. rewrite zlen_cons in Hk. cbn [packets marks].
  pose proof (zlen_nonneg pal). destruct (_ || _).
  - cbn [old_writes pk_entries_to_skip pk_colors]. replace (k - skip + skip) with k by lia.
    change (zlen [_]) with 1. rewrite (proj2 (Z.ltb_ge _ _)) by lia.
    replace (k + 1) with (k + 1 - 0) at 1 by lia. rewrite IH by lia. reflexivity.
  - replace (k - skip) with (k + 1 - (skip + 1)) by lia. rewrite IH by lia. reflexivity.
Qed.
Lemma marks_from t pal : forall k, Forall (fun w => k <= fst w) (marks t k pal).
Proof.
  induction pal as [|x pal IH]; intro k; [constructor|]. cbn [marks]. apply Forall_app. split.
  - destruct (_ || _); constructor; [cbn; lia|constructor].
  - eapply Forall_impl; [|apply IH]. cbn. lia.
Qed.
Lemma existsb_none {A} (f : A -> bool) l : Forall (fun x => f x = false) l -> existsb f l = false.
Proof. induction 1 as [|x l Hx H IH]; [reflexivity|]. cbn. now rewrite Hx, IH. Qed.
Lemma marks_at t pal : forall k j x, nth_error pal j = Some x ->
  assigned (marks t k pal) (k + Z.of_nat j) =
    if (k + Z.of_nat j =? t) || (alpha x =? 255) then {| red := red x; green := green x; blue := blue x; alpha := 255 |}
    else {| red := 0; green := 0; blue := 0; alpha := 0 |}.
Proof.
  induction pal as [|y pal IH]; intros k j x Hx; [now destruct j|]. cbn [marks]. rewrite assigned_app. destruct j as [|j].
  - cbn in Hx. injection Hx as ->. replace (k + Z.of_nat 0) with k by lia. rewrite existsb_none.
    + destruct (_ || _); [|reflexivity]. unfold assigned. cbn [rev app find fst]. now rewrite Z.eqb_refl.
    + eapply Forall_impl; [|apply marks_from]. cbn. intros w Hw. apply Z.eqb_neq. lia.
  - cbn in Hx. replace (k + Z.of_nat (S j)) with (k + 1 + Z.of_nat j) by lia. rewrite (IH (k + 1) j x Hx).
    destruct (existsb _ _) eqn:E; [reflexivity|].
    assert (N : assigned (marks t (k + 1) pal) (k + 1 + Z.of_nat j) = {| red := 0; green := 0; blue := 0; alpha := 0 |}).
    { apply assigned_none. rewrite Forall_forall. intros w Hw F. assert (existsb (fun w => fst w =? k + 1 + Z.of_nat j) (marks t (k + 1) pal) = true); [|congruence].
      apply existsb_exists. exists w. split; [exact Hw|]. apply Z.eqb_eq. exact F. }
    rewrite (IH (k + 1) j x Hx) in N. rewrite N. apply assigned_none. destruct ((k =? t) || (alpha y =? 255)); constructor; [cbn; lia|constructor].
Qed.

(** The chunks of a file in which all palette chunks are the same *)
Definition swap (p x : chunk) : chunk := match role_of x with Colours => p | _ => x end.
Fixpoint colour_count (cs : list chunk) : nat :=
  match cs with [] => O | x :: cs' => (match role_of x with Colours => 1 | _ => 0 end + colour_count cs')%nat end.
Lemma recode_chunks p raw : all_chunks (rw_frames (recode p raw)) = map (swap p) (all_chunks (rw_frames raw)).
Proof.
  unfold all_chunks, recode. cbn [rw_frames]. induction (rw_frames raw) as [|fr l IH]; [reflexivity|].
  cbn [map flat_map rf_chunks]. rewrite map_app, IH. reflexivity.
Qed.
Lemma swap_projection {A} (g : chunk -> list A) p cs : (forall x, role_of x <> Colours -> g x = []) ->
  flat_map g (map (swap p) cs) = concat (repeat (g p) (colour_count cs)).
Proof.
  intro Hg. induction cs as [|x cs IH]; [reflexivity|]. cbn [map flat_map colour_count]. rewrite IH. unfold swap.
  destruct (role_of x) eqn:E; cbn [Nat.add repeat concat]; try reflexivity; rewrite Hg by congruence; reflexivity.
Qed.
Lemma concat_single {A} (x : A) n : concat (repeat [x] n) = repeat x n.
Proof. induction n as [|n IH]; [reflexivity|]. cbn. now rewrite IH. Qed.
Lemma concat_empty {A} n : concat (repeat (@nil A) n) = [].
Proof. induction n as [|n IH]; [reflexivity|]. exact IH. Qed.
Lemma flat_map_repeat {A B} (f : A -> list B) x n : flat_map f (repeat x n) = concat (repeat (f x) n).
Proof. induction n as [|n IH]; [reflexivity|]. cbn. now rewrite IH. Qed.
Lemma old_all_repeat ch ws n : old_writes 0 (op_packets ch) = Some ws -> old_writes_all (repeat ch n) = Some (concat (repeat ws n)).
Proof. intro H. induction n as [|n IH]; [reflexivity|]. cbn [repeat old_writes_all concat]. now rewrite H, IH. Qed.

Lemma some_colours fs ws : spec_writes fs = inl ws -> colour_count (all_chunks fs) <> O.
Proof.
  intros H E. assert (G : forall A (g : chunk -> list A), (forall x, role_of x <> Colours -> g x = []) -> flat_map g (all_chunks fs) = []).
  { intros A g Hg. clear H. induction (all_chunks fs) as [|x cs IH]; [reflexivity|]. cbn [colour_count] in E. cbn [flat_map].
    destruct (role_of x) eqn:Ex; try discriminate E; rewrite Hg by congruence; apply IH, E. }
  unfold spec_writes, new_palettes, palettes_0004, palettes_0011 in H. rewrite !G in H by (intros []; cbn; congruence). discriminate.
Qed.

(** What the assignments of a palette come to *)
Definition gives (t : Z) (pal : list color) (ws : list (Z * color)) : Prop :=
  ws <> [] /\ forall k x, nth_error pal k = Some x -> spec_color t ws (Z.of_nat k) = x.
Lemma number_from es : forall k, Forall (fun w => k <= fst w) (number k es).
Proof. induction es as [|e es IH]; intro k; cbn; constructor; [cbn; lia|]. eapply Forall_impl; [|apply IH]. cbn. lia. Qed.
Lemma number_below es : forall k, Forall (fun w => fst w < k + zlen es) (number k es).
Proof.
  induction es as [|e es IH]; intro k; cbn [number]; [constructor|]. rewrite zlen_cons. pose proof (zlen_nonneg es).
  constructor; [cbn; lia|]. eapply Forall_impl; [|apply IH]. cbn. lia.
Qed.
Lemma filter_all {A} (f : A -> bool) l : Forall (fun x => f x = true) l -> filter f l = l.
Proof. induction 1 as [|x l Hx H IH]; [reflexivity|]. cbn. now rewrite Hx, IH. Qed.
Lemma number_at es : forall k j e, nth_error es j = Some e -> assigned (number k es) (k + Z.of_nat j) = pe_color e.
Proof.
  induction es as [|y es IH]; intros k j e Hx; [now destruct j|]. cbn [number].
  change ((k, pe_color y) :: number (k + 1) es) with ([(k, pe_color y)] ++ number (k + 1) es). destruct j as [|j].
  - cbn in Hx. injection Hx as ->. replace (k + Z.of_nat 0) with k by lia. apply (assigned_last []).
    eapply Forall_impl; [|apply number_from]. cbn. lia.
  - cbn in Hx. replace (k + Z.of_nat (S j)) with (k + 1 + Z.of_nat j) by lia. rewrite assigned_app, (IH (k + 1) j e Hx).
    rewrite (proj2 (existsb_exists _ _)); [reflexivity|]. clear IH. revert k j Hx. induction es as [|z es IH]; intros k j Hx; [now destruct j|].
    destruct j as [|j]; cbn [number].
    + eexists. split; [now left|]. cbn. apply Z.eqb_eq. lia.
    + cbn in Hx. destruct (IH (k + 1) j Hx) as (w & Hw & Ew). exists w. split; [now right|].
      apply Z.eqb_eq in Ew. apply Z.eqb_eq. lia.
Qed.
Lemma number_length es : forall k, length (number k es) = length es.
Proof. induction es as [|e es IH]; intro k; [reflexivity|]. cbn. now rewrite IH. Qed.

(** A loaded palette *)
Definition clear_at (t : Z) (pal : list color) : Prop := forall x, nth_error pal (Z.to_nat t) = Some x -> alpha x = 0.
Lemma color_eta x : {| red := red x; green := green x; blue := blue x; alpha := alpha x |} = x.
Proof. now destruct x. Qed.
Lemma whole_gives t pal : zlen pal = 256 -> clear_at t pal -> gives t pal (new_writes (whole_palette pal)).
Proof.
  intros Hl Ht. unfold new_writes, whole_palette. cbn [pc_first pc_last pc_entries].
  rewrite filter_all.
  2:{ eapply Forall_impl; [|apply number_below]. intros w. unfold zlen in *. rewrite map_length. intro. apply Z.leb_le. lia. }
  split.
  - intro E. apply (f_equal (@length _)) in E. rewrite number_length, map_length in E. unfold zlen in Hl. cbn in E. lia.
  - intros k x Hx. unfold spec_color.
    assert (E : assigned (number 0 (map (fun x => {| pe_color := x; pe_name := None |}) pal)) (Z.of_nat k) = x).
    { pose proof (number_at (map (fun x => {| pe_color := x; pe_name := None |}) pal) 0 k {| pe_color := x; pe_name := None |}) as G.
      apply G. rewrite nth_error_map, Hx. reflexivity. }
    rewrite E. destruct (Z.of_nat k =? t) eqn:Ek; [|reflexivity]. apply Z.eqb_eq in Ek.
    assert (Ex : alpha x = 0) by (apply Ht; subst t; now rewrite Nat2Z.id). rewrite <- Ex. apply color_eta.
Qed.
Lemma old_gives t pal : zlen pal = 256 -> 0 <= t < 256 -> clear_at t pal -> all_paintable t pal -> gives t pal (marks t 0 pal).
Proof.
  intros Hl Hb Ht HP. split.
  - intro E. destruct (nth_error pal (Z.to_nat t)) as [x|] eqn:Ex.
    + pose proof (marks_at t pal 0 _ _ Ex) as G. rewrite E in G. replace (0 + Z.of_nat (Z.to_nat t)) with t in G by lia.
      rewrite Z.eqb_refl in G. cbn in G. discriminate G.
    + apply nth_error_None in Ex. unfold zlen in Hl. lia.
  - intros k x Hx. unfold spec_color. pose proof (marks_at t pal 0 k x Hx) as G. rewrite !Z.add_0_l in G.
    rewrite G. clear G. destruct (Z.of_nat k =? t) eqn:Ek; cbn [orb].
    + apply Z.eqb_eq in Ek. assert (Ex : alpha x = 0) by (apply Ht; subst t; now rewrite Nat2Z.id).
      cbn. rewrite <- Ex. apply color_eta.
    + apply Z.eqb_neq in Ek. destruct (HP k x Hx) as [F|[F|F]]; [contradiction| |].
      * rewrite F, Z.eqb_refl. rewrite <- F at 1. apply color_eta.
      * subst x. reflexivity.
Qed.
Lemma nth_error_same {A} (l : list A) : forall l', (forall k, nth_error l k = nth_error l' k) -> l = l'.
Proof.
  induction l as [|a l IH]; intros [|b l'] H; [reflexivity|discriminate (H O)|discriminate (H O)|].
  injection (H O) as ->. f_equal. apply IH. intro k. exact (H (S k)).
Qed.
Lemma gives_palette t pal ws : zlen pal = 256 -> gives t pal ws -> map (spec_color t ws) (zrange 256) = pal.
Proof.
  intros Hl [_ H]. apply nth_error_same. intro k. destruct (Nat.lt_ge_cases k 256) as [Hk|Hk].
  - rewrite nth_256 by exact Hk. destruct (nth_error pal k) as [x|] eqn:E; [now rewrite (H k x E)|].
    apply nth_error_None in E. unfold zlen in Hl. lia.
  - rewrite (proj2 (nth_error_None pal k)) by (unfold zlen in Hl; lia). apply nth_error_None.
    pose proof (zlen_256 (spec_color t ws)) as L. unfold zlen in L. lia.
Qed.
Lemma gives_times t pal ws n : gives t pal ws -> gives t pal (concat (repeat ws (S n))).
Proof.
  intros [H1 H2]. split.
  - destruct ws; [contradiction|]. discriminate.
  - intros k x Hx. rewrite <- (H2 k x Hx). unfold spec_color. now rewrite assigned_times.
Qed.
Lemma recode_writes t pal p fs ws0 : zlen pal = 256 -> 0 <= t < 256 -> clear_at t pal -> expresses t pal p ->
  forall fs', all_chunks fs' = map (swap p) (all_chunks fs) -> spec_writes fs = inl ws0 ->
  exists ws, spec_writes fs' = inl ws /\ gives t pal ws.
Proof.
  intros Hl Hb Ht Hp fs' E Hw. pose proof (some_colours fs ws0 Hw) as Hn. unfold spec_writes, new_palettes, palettes_0004, palettes_0011.
  rewrite E, !swap_projection by (intros []; cbn; congruence).
  destruct (colour_count (all_chunks fs)) as [|n]; [contradiction|]. destruct Hp as [->|[HP [->| ->]]].
  - rewrite concat_single. rewrite !concat_empty. cbn [repeat].
    eexists. split; [reflexivity|]. change (whole_palette pal :: repeat (whole_palette pal) n) with (repeat (whole_palette pal) (S n)).
    rewrite flat_map_repeat. apply gives_times. now apply whole_gives.
  - rewrite concat_single, !concat_empty.
    pose proof (old_all_repeat (old_palette t pal) (marks t 0 pal) (S n) (packets_write t pal 0 0 ltac:(lia))) as G.
    cbn [repeat] in *. rewrite G. eexists. split; [reflexivity|]. apply gives_times. now apply old_gives.
  - rewrite concat_single, !concat_empty.
    pose proof (old_all_repeat (old_palette t pal) (marks t 0 pal) (S n) (packets_write t pal 0 0 ltac:(lia))) as G.
    cbn [repeat] in *. rewrite G. eexists. split; [reflexivity|]. apply gives_times. now apply old_gives.
Qed.

Section Loaded.
Context (c : cfg) (i : bytes) (s : ase_file) (raw : raw_file) (pal : palette).
Context (Hc : cfg_ok c) (Hi : is_bytes i) (Ha : addressable c i) (Hload : load c i = Ok s).
Context (Hraw : parse_raw_file c i = Ok raw) (Hpal : f_palette (af_file s) = Some pal).
Let t := h_transparent_index (rw_header raw).

Lemma loaded_palette : h_color_depth (rw_header raw) = Indexed /\ spec_palette t (rw_frames raw) = inl pal.
Proof.
  destruct (parse_file_ok c i _ Hc Hi Ha (loaded_parse c i s Hload)) as (raw0 & pal0 & _ & Hr & HP & Ef & _).
  assert (raw0 = raw) as -> by congruence. rewrite Ef in Hpal. cbn [file_of f_palette] in Hpal. subst pal0.
  unfold palette_of in HP. fold t in HP. destruct (h_color_depth (rw_header raw)); try discriminate. split; [reflexivity|].
  destruct (spec_palette t (rw_frames raw)); [|discriminate]. injection HP as ->. reflexivity.
Qed.
Lemma loaded_writes : exists ws, spec_writes (rw_frames raw) = inl ws /\ zlen pal = 256 /\
  forall k, (k < 256)%nat -> nth_error pal k = Some (spec_color t ws (Z.of_nat k)).
Proof. destruct loaded_palette as [_ H]. apply spec_palette_nth in H as (ws & H1 & _ & H2 & H3). eauto. Qed.
Lemma loaded_transparent : 0 <= t < 256.
Proof. destruct (raw_payloads c i raw Hc Hi Ha Hraw) as (_ & (e & ? & ? & ? & H) & _). unfold u8, uint in H. cbn in H. subst t. lia. Qed.
Lemma loaded_clear : clear_at t pal.
Proof.
  destruct loaded_writes as (ws & _ & _ & H). pose proof loaded_transparent. intros x Hx. rewrite H in Hx by lia. injection Hx as <-.
  unfold spec_color. rewrite Z2Nat.id by lia. now rewrite Z.eqb_refl.
Qed.

Lemma recode_frames p : role_of p = Colours -> frames_by (Forall2 recoded) raw (recode p raw).
Proof.
  intro Hp. unfold frames_by, recode. cbn [rw_frames]. induction (rw_frames raw) as [|fr l IH]; [constructor|].
  cbn [map]. constructor; [|exact IH]. cbn [rf_duration rf_chunks]. split; [reflexivity|].
  induction (rf_chunks fr) as [|x cs IHc]; [constructor|]. cbn [map]. constructor; [|exact IHc].
  destruct (role_of x) eqn:E; try (now left). right. split; [exact E|exact Hp].
Qed.
Lemma expresses_role p : expresses t pal p -> role_of p = Colours.
Proof. intros [->|[_ [->| ->]]]; reflexivity. Qed.
Lemma recode_palette p : expresses t pal p -> palette_of (recode p raw) = palette_of raw.
Proof.
  intro Hp. destruct loaded_palette as [Hd HS]. destruct loaded_writes as (ws0 & Hw & Hl & _).
  unfold palette_of. cbn [recode rw_header]. fold t. rewrite Hd, HS.
  destruct (recode_writes t pal p _ ws0 Hl loaded_transparent loaded_clear Hp _ (recode_chunks p raw) Hw) as (ws & Ew & G).
  unfold spec_palette. rewrite Ew. pose proof (gives_palette t pal ws Hl G) as E.
  destruct G as [Hne _]. destruct ws; [contradiction|]. now rewrite E.
Qed.

Lemma recode_load p i' raw' : expresses t pal p -> is_bytes i' -> addressable c i' -> parse_raw_file c i' = Ok raw' ->
  same_picture_header (rw_header raw) (rw_header raw') -> rw_frames raw' = rw_frames (recode p raw) ->
  exists s', load c i' = Ok s' /\ same_sprite c s s'.
Proof.
  intros Hp Hi' Ha' Hr' Hh HF. assert (G : same_outcome c (load c i) (load c i')).
  { refine (recoded_load c i i' raw raw' Hc Hi Ha Hi' Ha' Hraw Hr' Hh _ _).
    - unfold frames_by. rewrite HF. apply recode_frames, (expresses_role p Hp).
    - rewrite <- (recode_palette p Hp). unfold palette_of. rewrite HF. cbn [recode rw_header].
      destruct Hh as (_ & _ & -> & ->). reflexivity. }
  rewrite Hload in G. destruct (load c i') as [s'|?|?]; try contradiction. eauto.
Qed.

(** Palettes from old chunks *)
Lemma place_opaque cols : forall k, Forall (fun w => alpha (snd w) = 255) (place k cols).
Proof. induction cols as [|x cols IH]; intro k; cbn; constructor; [reflexivity|apply IH]. Qed.
Lemma old_writes_opaque ps : forall k ws, old_writes k ps = Some ws -> Forall (fun w => alpha (snd w) = 255) ws.
Proof.
  induction ps as [|p ps IH]; intros k ws; cbn [old_writes]; [intros [= <-]; constructor|].
  destruct (_ <? _); [discriminate|]. destruct (old_writes _ ps) eqn:E; [|discriminate]. intros [= <-].
  apply Forall_app. split; [apply place_opaque|eapply IH, E].
Qed.
Lemma old_all_opaque chs : forall ws, old_writes_all chs = Some ws -> Forall (fun w => alpha (snd w) = 255) ws.
Proof.
  induction chs as [|ch chs IH]; intros ws; cbn [old_writes_all]; [intros [= <-]; constructor|].
  destruct (old_writes 0 _) eqn:E; [|discriminate]. destruct (old_writes_all chs) eqn:E'; [|discriminate]. intros [= <-].
  apply Forall_app. split; [eapply old_writes_opaque, E|now apply IH].
Qed.
Lemma old_paintable : new_palettes (rw_frames raw) = [] -> all_paintable t pal.
Proof.
  intro Hn. destruct loaded_writes as (ws & Hw & Hl & Hk). unfold spec_writes in Hw. rewrite Hn in Hw.
  assert (O : Forall (fun w => alpha (snd w) = 255) ws).
  { destruct (palettes_0004 (rw_frames raw)) as [|a l]; [destruct (palettes_0011 (rw_frames raw)) as [|a l]; [discriminate|]|];
      (destruct (old_writes_all (a :: l)) as [ws'|] eqn:E; [|discriminate]; injection Hw as <-; eapply old_all_opaque, E). }
  intros k x Hx. assert (k < 256)%nat. { assert (k < length pal)%nat by (apply nth_error_Some; congruence). unfold zlen in Hl. lia. }
  rewrite Hk in Hx by assumption. injection Hx as <-. unfold paintable, spec_color. destruct (_ =? _) eqn:E; [left; now apply Z.eqb_eq|].
  right. unfold assigned. destruct (find _ (rev ws)) as [[j y]|] eqn:F; [|now right]. left.
  apply find_some in F as [F _]. apply in_rev in F. rewrite Forall_forall in O. exact (O _ F).
Qed.

(** Written again *)
Lemma packets_wf l : Forall color_ok l -> forall skip k, 0 <= skip -> skip + zlen l <= 256 ->
  Forall wf_packet (packets t skip k l) /\ zlen (packets t skip k l) <= zlen l.
Proof.
  induction 1 as [|x l Hx H IH]; intros skip k Hs Hk; cbn [packets].
  - split; [constructor|]. unfold zlen. cbn. lia.
  - rewrite zlen_cons in *. pose proof (zlen_nonneg l). destruct (_ || _).
    + destruct (IH 0 (k + 1) ltac:(lia) ltac:(lia)) as [H1 H2]. rewrite zlen_cons. split; [|lia]. constructor; [|exact H1].
      unfold wf_packet, u8, uint. cbn [pk_entries_to_skip pk_colors]. change (zlen [_]) with 1. split; [lia|]. split; [lia|].
      constructor; [|constructor]. destruct Hx as (R & G & B & _). unfold wf_rgb, enc_rgb, is_bytes. cbn. repeat (apply Forall_cons; [assumption|]). apply Forall_nil.
    + destruct (IH (skip + 1) (k + 1) ltac:(lia) ltac:(lia)) as [H1 H2]. split; [exact H1|lia].
Qed.
Lemma expresses_wf p : expresses t pal p -> wf_payload p.
Proof.
  destruct loaded_writes as (_ & _ & Hl & _). pose proof (palette_colors c i s Hc Hi Ha Hload pal Hpal) as HC.
  assert (O : wf_old_palette (old_palette t pal)).
  { destruct (packets_wf pal HC 0 0 ltac:(lia) ltac:(lia)) as [H1 H2]. split; [|exact H1]. unfold old_palette, u16, uint. cbn [op_packets].
    pose proof (zlen_nonneg (packets t 0 0 pal)). lia. }
  intros [->|[_ [->| ->]]]; [|exact O|exact O]. cbn [wf_payload]. unfold wf_palette, whole_palette. cbn [pc_entries pc_first pc_last].
  split; [unfold u32, uint, zlen in *; rewrite map_length; lia|]. split; [lia|]. split; [lia|]. apply Forall_map.
  eapply Forall_impl; [|exact HC]. intros x (R & G & B & A). split; [|exact I]. unfold wf_color, enc_color, is_bytes. cbn. repeat (apply Forall_cons; [assumption|]). apply Forall_nil.
Qed.
Lemma part_size {A} (f : A -> bytes) x l : In x l -> zlen (f x) <= zlen (flat_map f l).
Proof.
  induction l as [|y l IH]; intros []; cbn [flat_map]; rewrite zlen_app.
  - subst. pose proof (zlen_nonneg (flat_map f l)). lia.
  - pose proof (zlen_nonneg (f y)). specialize (IH H). lia.
Qed.
Lemma recode_wf p : expresses t pal p -> wf_file raw ->
  Forall (fun fr => u32 (zlen (enc_raw_frame fr))) (rw_frames (recode p raw)) -> wf_file (recode p raw).
Proof.
  intros Hp (H1 & H2 & H3) HS. split; [exact H1|]. unfold recode in *. cbn [rw_frames] in *. split.
  - destruct (rw_frames raw); [contradiction|discriminate].
  - revert H3 HS. clear H2. induction (rw_frames raw) as [|fr l IH]; intros HW HS; [constructor|]. cbn [map] in *.
    inversion HW as [|? ? (W1 & W2 & W3) W]; subst. inversion HS as [|? ? S1 S]; subst. constructor; [|now apply IH].
    split; [exact W1|]. split; [|exact S1]. cbn [rf_chunks] in *. rewrite Forall_forall. intros y Hy.
    split.
    + apply in_map_iff in Hy as (x & <- & Hx). rewrite Forall_forall in W2. destruct (W2 x Hx) as [Wx _].
      destruct (role_of x); try exact Wx. now apply expresses_wf.
    + pose proof (part_size enc_chunk _ _ Hy) as L. unfold u32, uint in *. unfold enc_raw_frame in S1. cbn [rf_chunks rf_duration] in S1.
      rewrite !zlen_app in S1. pose proof (zlen_nonneg (enc_chunk y)).
      pose proof (zlen_nonneg (le 2 0xF1FA)). pose proof (zlen_nonneg (le 2 0)). pose proof (zlen_nonneg (le 2 (rf_duration fr))).
      pose proof (zlen_nonneg (zeros 2)).
      match type of S1 with _ <= zlen ?a + (_ + (_ + (_ + (_ + (zlen ?b + _))))) < _ => pose proof (zlen_nonneg a); pose proof (zlen_nonneg b) end.
      lia.
Qed.
Lemma recode_written p : expresses t pal p -> no_map_error raw ->
  Forall (fun fr => u32 (zlen (enc_raw_frame fr))) (rw_frames (recode p raw)) -> addressable c (enc_file (recode p raw)) ->
  exists s', load c (enc_file (recode p raw)) = Ok s' /\ same_sprite c s s'.
Proof.
  intros Hp Hn HS Ha'.
  destruct (proj2 (parser_range c raw Hc) (conj Hn (ex_intro _ i (conj Hi (conj Ha Hraw))))) as [Hw _].
  pose proof (recode_wf p Hp Hw HS) as Hw'.
  refine (recode_load p (enc_file (recode p raw)) (recode p raw) Hp _ Ha' _ _ eq_refl).
  - apply (file_writes not_maps _ Hw').
  - now apply write_read.
  - unfold same_picture_header. cbn [recode rw_header]. auto.
Qed.
End Loaded.
