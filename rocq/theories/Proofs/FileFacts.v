(** The sprite level: chunks to layers, cels, tags, slices and user data. *)
From Verif.Model Require Import File.
From Verif.Spec Require Import FileSpec.
From Verif.Proofs Require Import ParseLib RawFacts.

(** ** User data attachment *)
Lemma next_own it : exists it', next_user_data it = (own it, it') /\
  (it' = it \/ exists u, it = ChUserData u :: it').
Proof.
  destruct it as [|[]]; cbn; try (eexists; split; [reflexivity|now left]).
  eexists. split; [reflexivity|]. right. eauto.
Qed.

(** [it'] is [it] without some leading user data chunks *)
Definition eaten (it it' : list chunk) : Prop := exists us, it = map ChUserData us ++ it'.

Lemma eaten_refl it : eaten it it. Proof. now exists []. Qed.
Lemma eaten_next it : eaten it (snd (next_user_data it)).
Proof.
  destruct (next_own it) as (it' & -> & [->|[u ->]]); [apply eaten_refl|now exists [u]].
Qed.
Lemma eaten_length it it' : eaten it it' -> (length it' <= length it)%nat.
Proof. intros [us ->]. rewrite app_length. lia. Qed.

Lemma eaten_layers it it' : eaten it it' -> spec_layers it = spec_layers it'.
Proof. intros [us ->]. induction us as [|u us IH]; [reflexivity|exact IH]. Qed.
Lemma eaten_cels it it' : eaten it it' -> spec_cels it = spec_cels it'.
Proof. intros [us ->]. induction us as [|u us IH]; [reflexivity|exact IH]. Qed.
Lemma eaten_slices it it' : eaten it it' -> spec_slices it = spec_slices it'.
Proof. intros [us ->]. induction us as [|u us IH]; [reflexivity|exact IH]. Qed.
Lemma eaten_tags it it' : eaten it it' -> spec_tags it = spec_tags it'.
Proof. intros [us ->]. induction us as [|u us IH]; [reflexivity|exact IH]. Qed.
Lemma eaten_sprite it it' : eaten it it' -> spec_sprite_data it = spec_sprite_data it'.
Proof. intros [us ->]. induction us as [|u us IH]; [reflexivity|exact IH]. Qed.

Definition fresh_tag (t : tag_) : Prop := tg_user_data t = None.
Definition fresh_chunk (x : chunk) : Prop :=
  match x with ChTags t => Forall fresh_tag (tc_tags t) | _ => True end.

Lemma tag_with_fresh t : fresh_tag t -> tag_with t None = t.
Proof. destruct t. unfold fresh_tag. cbn. now intros ->. Qed.

Lemma give_nil tags : Forall fresh_tag tags -> give tags [] = tags.
Proof.
  induction 1 as [|t ts Ht H IH]; [reflexivity|]. cbn [give nth_error skipn].
  now rewrite tag_with_fresh, IH.
Qed.

Lemma tags_loop_spec tags : forall it, Forall fresh_tag tags ->
  exists it', tags_loop tags it = (give tags (followers it), it') /\ eaten it it'.
Proof.
  induction tags as [|t ts IH]; intros it H.
  - exists it. split; [reflexivity|apply eaten_refl].
  - inversion H as [|? ? Ht Hts]; subst. cbn [tags_loop give].
    destruct it as [|x it]; [|destruct x].
    all: cbn [next_user_data followers nth_error skipn].
    13: { destruct (IH it Hts) as (it' & E & us & ->). rewrite E. eexists. split; [reflexivity|].
          exists (u :: us). reflexivity. }
    all: eexists; (split; [|apply eaten_refl]); now rewrite give_nil.
Qed.

Definition is_none {A} (o : option A) := match o with None => true | Some _ => false end.

(** The state after the chunks [cs] of a frame. *)
Definition after (first : bool) (s : fstate) (cs : list chunk) : fstate :=
  {| st_cels := st_cels s ++ spec_cels cs; st_layers := st_layers s ++ spec_layers cs;
     st_tags := st_tags s ++ spec_tags cs; st_slices := st_slices s ++ spec_slices cs;
     st_user_data := if first && is_none (st_user_data s) then spec_sprite_data cs else st_user_data s |}.

Lemma after_eaten first s it it' : eaten it it' -> after first s it = after first s it'.
Proof.
  intro H. unfold after.
  rewrite (eaten_cels _ _ H), (eaten_layers _ _ H), (eaten_tags _ _ H), (eaten_slices _ _ H),
    (eaten_sprite _ _ H). reflexivity.
Qed.

Lemma step_after first s x it : fresh_chunk x ->
  exists it', snd (chunk_step first s x it) = it' /\ eaten it it' /\
    after first (fst (chunk_step first s x it)) it' = after first s (x :: it).
Proof.
  intro Hx.
  destruct x; cbn [chunk_step]; cbn [fst snd].
  all: try (exists it; split; [reflexivity|]; split; [apply eaten_refl|];
            unfold after, spec_cels, spec_layers, spec_tags, spec_slices, spec_sprite_data;
            cbn [suffixes flat_map is_palette_chunk app]; reflexivity).
  (* palettes *)
  1,2,6: (change (match st_user_data s with Some _ => false | None => true end) with (is_none (st_user_data s));
    destruct (first && is_none (st_user_data s)) eqn:E;
    [ destruct (next_own it) as (it' & En & Hit); rewrite En; cbn [fst snd]; exists it';
      assert (He : eaten it it') by (destruct Hit as [->|[u ->]]; [apply eaten_refl|now exists [u]]);
      split; [reflexivity|]; split; [exact He|];
      rewrite <- (after_eaten _ _ _ _ He); unfold after, st_set_user_data; cbn [st_cels st_layers st_tags st_slices st_user_data];
      rewrite E; apply andb_true_iff in E as [-> E];
      unfold spec_cels, spec_layers, spec_tags, spec_slices, spec_sprite_data, own;
      cbn [suffixes flat_map is_palette_chunk app andb];
      destruct (followers it) as [|u us]; reflexivity
    | exists it; split; [reflexivity|]; split; [apply eaten_refl|];
      cbn [fst]; unfold after; rewrite E; reflexivity ]).
  (* layer, cel, slice *)
  1,2,4: (destruct (next_own it) as (it' & En & Hit); rewrite En; cbn [fst snd]; exists it';
      assert (He : eaten it it') by (destruct Hit as [->|[u ->]]; [apply eaten_refl|now exists [u]]);
      split; [reflexivity|]; split; [exact He|];
      rewrite <- (after_eaten _ _ _ _ He);
      unfold after, st_push_layer, st_push_cel, st_push_slice; cbn [st_cels st_layers st_tags st_slices st_user_data];
      unfold spec_cels, spec_layers, spec_tags, spec_slices, spec_sprite_data;
      cbn [suffixes flat_map is_palette_chunk app]; rewrite <- ?app_assoc; reflexivity).
  (* tags *)
  destruct (tags_loop_spec (tc_tags t) it Hx) as (it' & E & He). rewrite E. cbn [fst snd]. exists it'.
  split; [reflexivity|]. split; [exact He|]. rewrite <- (after_eaten _ _ _ _ He).
  unfold after, st_extend_tags; cbn [st_cels st_layers st_tags st_slices st_user_data].
  unfold spec_cels, spec_layers, spec_tags, spec_slices, spec_sprite_data;
      cbn [suffixes flat_map is_palette_chunk app]; rewrite <- ?app_assoc; reflexivity.
Qed.

Lemma eaten_fresh it it' : eaten it it' -> Forall fresh_chunk it -> Forall fresh_chunk it'.
Proof. intros [us ->] H. now apply Forall_app in H. Qed.

Lemma chunk_loop_spec fuel : forall first s cs, (length cs <= fuel)%nat -> Forall fresh_chunk cs ->
  chunk_loop fuel first s cs = Ok (after first s cs).
Proof.
  induction fuel as [|fuel IH]; intros first s cs Hl Hf.
  - destruct cs; [|cbn in Hl; lia]. cbn. f_equal. unfold after. cbn. rewrite !app_nil_r.
    destruct s as [? ? ? ? u]. cbn. destruct u, first; reflexivity.
  - destruct cs as [|x cs].
    + cbn. f_equal. unfold after. cbn. rewrite !app_nil_r.
      destruct s as [? ? ? ? u]. cbn. destruct u, first; reflexivity.
    + inversion Hf as [|? ? Hx Hcs]; subst. cbn [chunk_loop].
      destruct (step_after first s x cs Hx) as (it' & E1 & E2 & E3).
      destruct (chunk_step first s x cs) as [s' it]. cbn [fst snd] in *. subst it'.
      rewrite IH, E3; [reflexivity| |now apply eaten_fresh in E2].
      apply eaten_length in E2. cbn in Hl. lia.
Qed.

(** ** Frames *)
Definition init_state : fstate :=
  {| st_cels := []; st_layers := []; st_tags := []; st_slices := []; st_user_data := None |}.

Lemma frames_later fs : forall acc s, acc <> [] -> Forall (fun f => Forall fresh_chunk (rf_chunks f)) fs ->
  exists cels, fold_out frame_step fs (acc, s) =
    Ok (acc ++ map (fun f => (rf_duration f, spec_cels (rf_chunks f))) fs,
        {| st_cels := cels; st_layers := st_layers s ++ flat_map (fun f => spec_layers (rf_chunks f)) fs;
           st_tags := st_tags s ++ flat_map (fun f => spec_tags (rf_chunks f)) fs;
           st_slices := st_slices s ++ flat_map (fun f => spec_slices (rf_chunks f)) fs;
           st_user_data := st_user_data s |}).
Proof.
  induction fs as [|f fs IH]; intros acc s Hacc Hf.
  - exists (st_cels s). cbn. rewrite !app_nil_r. now destruct s.
  - inversion Hf as [|? ? H1 H2]; subst. cbn [fold_out]. unfold frame_step at 1.
    destruct acc as [|a acc]; [contradiction|]. rewrite chunk_loop_spec by auto. cbn [bind].
    edestruct IH as (cels & ->); [|exact H2|].
    { intro E. apply app_eq_nil in E as [_ E]. discriminate. }
    exists cels. unfold after, st_clear_cels. cbn [st_cels st_layers st_tags st_slices st_user_data app andb].
    rewrite <- !app_assoc. cbn [flat_map map]. reflexivity.
Qed.

Lemma frames_spec f fs : Forall (fun f => Forall fresh_chunk (rf_chunks f)) (f :: fs) ->
  exists cels, fold_out frame_step (f :: fs) ([], init_state) =
    Ok (map (fun f => (rf_duration f, spec_cels (rf_chunks f))) (f :: fs),
        {| st_cels := cels; st_layers := flat_map (fun f => spec_layers (rf_chunks f)) (f :: fs);
           st_tags := flat_map (fun f => spec_tags (rf_chunks f)) (f :: fs);
           st_slices := flat_map (fun f => spec_slices (rf_chunks f)) (f :: fs);
           st_user_data := spec_sprite_data (rf_chunks f) |}).
Proof.
  intro Hf. inversion Hf as [|? ? H1 H2]; subst. cbn [fold_out]. unfold frame_step at 1.
  rewrite chunk_loop_spec by auto. cbn [bind app].
  edestruct frames_later as (cels & ->); [discriminate|exact H2|]. exists cels. reflexivity.
Qed.

(** ** Cels into slots *)
Lemma upd_length {A} (l : list A) i x : length (upd l i x) = length l.
Proof. revert i. induction l as [|a l IH]; intros [|i]; cbn; auto. Qed.

Lemma upd_nth {A} (l : list A) i j x : (i < length l)%nat ->
  nth_error (upd l i x) j = if (i =? j)%nat then Some x else nth_error l j.
Proof.
  revert i j. induction l as [|a l IH]; intros i j Hi; [cbn in Hi; lia|].
  destruct i as [|i], j as [|j]; cbn; try reflexivity. apply IH. cbn in Hi. lia.
Qed.

Lemma zrange_length n : length (zrange n) = Z.to_nat n.
Proof. unfold zrange. now rewrite map_length, seq_length. Qed.

Lemma zrange_nth n k : (k < Z.to_nat n)%nat -> nth_error (zrange n) k = Some (Z.of_nat k).
Proof.
  intro H. unfold zrange. rewrite nth_error_map. rewrite (nth_error_nth' _ 0%nat) by now rewrite seq_length.
  cbn. f_equal. now rewrite seq_nth.
Qed.

Lemma list_ext {A} (l l' : list A) : length l = length l' ->
  (forall k, (k < length l)%nat -> nth_error l k = nth_error l' k) -> l = l'.
Proof.
  revert l'. induction l as [|a l IH]; intros [|b l'] Hl H; cbn in Hl; try discriminate; [reflexivity|].
  assert (H0 := H 0%nat ltac:(cbn; lia)). cbn in H0. injection H0 as ->. f_equal. apply IH; [lia|].
  intros k Hk. apply (H (S k)). cbn. lia.
Qed.

Lemma upd_slots n done x : 0 <= cc_layer_index x < n ->
  upd (slots n done) (Z.to_nat (cc_layer_index x)) (Some x) = slots n (done ++ [x]).
Proof.
  intro Hx. unfold slots. apply list_ext.
  - now rewrite upd_length, !map_length.
  - intros k Hk. rewrite upd_length, map_length, zrange_length in Hk.
    rewrite upd_nth by (rewrite map_length, zrange_length; lia).
    rewrite !nth_error_map, zrange_nth by exact Hk. cbn [option_map].
    unfold cel_at. rewrite rev_app_distr. cbn [rev app find].
    destruct (Nat.eqb_spec (Z.to_nat (cc_layer_index x)) k), (Z.eqb_spec (cc_layer_index x) (Z.of_nat k));
      try reflexivity; lia.
Qed.

Lemma slots_nil n : slots n [] = repeat None (Z.to_nat n).
Proof.
  unfold slots, zrange. rewrite map_map. cbn. generalize 0%nat. induction (Z.to_nat n) as [|m IH]; intro a; cbn; [reflexivity|].
  now rewrite IH.
Qed.

Lemma insert_loop n cs : 0 <= n -> Forall (fun x => 0 <= cc_layer_index x) cs -> forall done,
  fold_out (fun cels cel =>
    if n <? cc_layer_index cel then failure ELayerIndexOutOfBounds
    else set_index cels (cc_layer_index cel) (Some cel)) cs (slots n done) =
  match find (bad_cel n) cs with
  | None => Ok (slots n (done ++ cs))
  | Some x => cel_failure n x
  end.
Proof.
  intro Hn. induction 1 as [|x cs Hx H IH]; intro done; cbn [fold_out find].
  - now rewrite app_nil_r.
  - unfold bad_cel at 1. destruct (Z.leb_spec n (cc_layer_index x)) as [Hle|Hlt].
    + unfold cel_failure, set_index. destruct (Z.ltb_spec n (cc_layer_index x)); [reflexivity|].
      unfold zlen, slots at 1. rewrite map_length, zrange_length.
      destruct (Z.ltb_spec (cc_layer_index x) (Z.of_nat (Z.to_nat n))); [lia|].
      rewrite andb_false_r. reflexivity.
    + destruct (Z.ltb_spec n (cc_layer_index x)); [lia|]. unfold set_index.
      unfold zlen, slots at 1. rewrite map_length, zrange_length.
      destruct (Z.ltb_spec (cc_layer_index x) (Z.of_nat (Z.to_nat n))); [|lia].
      destruct (Z.leb_spec 0 (cc_layer_index x)); [|lia]. cbn [andb bind].
      rewrite upd_slots by lia. rewrite IH, <- app_assoc. reflexivity.
Qed.

Lemma insert_cels_spec n cs : 0 <= n -> Forall (fun x => 0 <= cc_layer_index x) cs ->
  insert_cels n cs = match find (bad_cel n) cs with None => Ok (slots n cs) | Some x => cel_failure n x end.
Proof.
  intros Hn H. unfold insert_cels. rewrite <- slots_nil. now rewrite insert_loop.
Qed.

Lemma find_app {A} (f : A -> bool) a b : find f (a ++ b) = match find f a with Some x => Some x | None => find f b end.
Proof. induction a as [|x a IH]; cbn; [reflexivity|]. now destruct (f x). Qed.

Lemma insert_all n (fs : list (Z * list cel_chunk)) : 0 <= n ->
  Forall (fun f => Forall (fun x => 0 <= cc_layer_index x) (snd f)) fs ->
  map_out (fun '(duration, cs) =>
      let* cels := insert_cels n cs in
      Ok {| fr_duration := duration; fr_cels := cels |}) fs =
  match find (bad_cel n) (flat_map snd fs) with
  | None => Ok (map (fun f => {| fr_duration := fst f; fr_cels := slots n (snd f) |}) fs)
  | Some x => cel_failure n x
  end.
Proof.
  intros Hn. induction 1 as [|[d cs] fs H1 H2 IH]; [reflexivity|]. cbn [map_out flat_map snd] in *.
  rewrite find_app, insert_cels_spec by assumption.
  destruct (find (bad_cel n) cs) as [x|].
  - unfold cel_failure. destruct (n <? cc_layer_index x); reflexivity.
  - cbn [bind]. rewrite IH. destruct (find (bad_cel n) (flat_map snd fs)) as [x|]; [|reflexivity].
    unfold cel_failure. destruct (n <? cc_layer_index x); reflexivity.
Qed.
