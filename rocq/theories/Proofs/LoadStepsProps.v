(** The counted loader gives the outcome of the model's loader, and the count is
    bounded. *)
From Coq Require Import Lia.
From Verif.Model Require Import LoadSteps.
From Verif.Proofs Require Import StepsProps.
From Verif.Spec Require Import Bytes Format LoaderSpec FileSpec Size.
From Verif.Proofs Require Import ParseLib ChunkFacts RawFacts EncodeFacts EncodeProps FileProps BinaryFinal SizeProps.

(** ** The outcome *)

Lemma snd_kbind {E A B} (m : kout E A) (k : A -> kout E B) m' k' :
  snd m = m' -> (forall a, snd (k a) = k' a) -> snd (kbind m k) = bind m' k'.
Proof. intros <- H. unfold kbind, bind. destruct (snd m); cbn [snd]; auto. Qed.
Lemma snd_k_fold {E A B} (f : A -> B -> kout E A) f' : (forall a b, snd (f a b) = f' a b) ->
  forall l a, snd (k_fold f l a) = fold_out f' l a.
Proof.
  intros H. induction l as [|b l IH]; intros a; [reflexivity|]. cbn [k_fold fold_out round snd].
  apply snd_kbind; auto.
Qed.
Lemma snd_k_map {E A B} (f : A -> kout E B) f' : (forall a, snd (f a) = f' a) ->
  forall l, snd (k_map f l) = map_out f' l.
Proof.
  intros H. induction l as [|a l IH]; [reflexivity|]. cbn [k_map map_out round snd].
  apply snd_kbind; [apply H|intros b]. apply snd_kbind; [exact IH|reflexivity].
Qed.
Lemma same_palette_chunks t chunks p : snd (k_process_palette_chunks t chunks p) = process_palette_chunks t chunks p.
Proof.
  unfold k_process_palette_chunks, process_palette_chunks. apply snd_kbind.
  - apply snd_k_fold. intros st ch. apply snd_k_fold. intros [q ok] [e i]. apply snd_kbind; reflexivity.
  - intros [q []]; reflexivity.
Qed.
Lemma same_old_packet c st pk : snd (k_old_packet c st pk) = old_packet c st pk.
Proof.
  destruct st as [[p i] ok]. unfold k_old_packet, old_packet. do 2 (apply snd_kbind; [reflexivity|intros ?]).
  destruct (256 <? a0); [reflexivity|]. unfold k_old_packet_colors, old_packet_colors. apply snd_k_fold.
  intros [[q j] o] col. do 2 (apply snd_kbind; [reflexivity|intros ?]). reflexivity.
Qed.
Lemma same_old_chunks c t chunks p : snd (k_process_old_palette_chunks c t chunks p) = process_old_palette_chunks c t chunks p.
Proof.
  unfold k_process_old_palette_chunks, process_old_palette_chunks. apply snd_kbind.
  - apply snd_k_fold. intros [q ok] ch. apply snd_kbind; [apply snd_k_fold; apply same_old_packet|]. intros [[q' j] o]. reflexivity.
  - intros [q []]; reflexivity.
Qed.
Lemma same_create_palette c h frames : snd (k_create_palette c h frames) = create_palette c h frames.
Proof.
  unfold k_create_palette, create_palette, rounds_of. cbn [snd]. destruct (palette_chunks frames); [|apply same_palette_chunks].
  cbn [snd]. destruct (palette0004_chunks frames); [|apply same_old_chunks].
  cbn [snd]. destruct (palette0011_chunks frames); [reflexivity|apply same_old_chunks].
Qed.
Lemma same_tags_loop ts : forall it, snd (k_tags_loop ts it) = tags_loop ts it.
Proof.
  induction ts as [|t ts IH]; intros it; [reflexivity|]. cbn [k_tags_loop tags_loop].
  destruct (next_user_data it) as [[u|] it']; [|reflexivity]. specialize (IH it'). destruct (k_tags_loop ts it') as [n [ts' it'']].
  cbn [snd] in IH. now rewrite <- IH.
Qed.
Lemma same_chunk_step first s ch it : snd (k_chunk_step first s ch it) = chunk_step first s ch it.
Proof.
  destruct ch; try reflexivity. cbn [k_chunk_step chunk_step]. pose proof (same_tags_loop (tc_tags t) it) as H.
  destruct (k_tags_loop _ it) as [n [ts it']]. cbn [snd] in H. now rewrite <- H.
Qed.
Lemma same_chunk_loop fuel first : forall s it, snd (k_chunk_loop fuel first s it) = chunk_loop fuel first s it.
Proof.
  induction fuel as [|fuel IH]; intros s [|ch it]; try reflexivity. cbn [k_chunk_loop chunk_loop].
  pose proof (same_chunk_step first s ch it) as H. destruct (k_chunk_step first s ch it) as [n [s' it']]. cbn [snd] in H.
  rewrite <- H. apply IH.
Qed.
Lemma same_frame_step acc rf : snd (k_frame_step acc rf) = frame_step acc rf.
Proof. destruct acc as [frames s]. unfold k_frame_step, frame_step. apply snd_kbind; [apply same_chunk_loop|reflexivity]. Qed.
Lemma same_insert_cels n cs : snd (k_insert_cels n cs) = insert_cels n cs.
Proof.
  unfold k_insert_cels, insert_cels, rounds_of. cbn [snd]. apply snd_k_fold. intros cels cel. destruct (n <? _); reflexivity.
Qed.
Lemma same_parse_file c i : snd (k_parse_file c i) = parse_file c i.
Proof.
  unfold k_parse_file, parse_file. apply snd_kbind; [apply raw_file_steps|intros raw].
  apply snd_kbind.
  { destruct (h_color_depth _); try reflexivity. apply snd_kbind; [|reflexivity].
    unfold k_map_err. cbn [snd]. now rewrite same_create_palette. }
  intros pal. apply snd_kbind; [apply snd_k_fold, same_frame_step|]. intros [frames s].
  apply snd_kbind; [|reflexivity]. apply snd_k_map. intros [d cs]. apply snd_kbind; [apply same_insert_cels|reflexivity].
Qed.
Lemma same_cels {E A B} (f : A -> out E B) l : snd (k_cels f l) = map_out f (somes l).
Proof.
  induction l as [|[a|] l IH]; [reflexivity| |exact IH]. cbn [k_cels somes map_out round snd].
  apply snd_kbind; [reflexivity|intros b]. apply snd_kbind; [exact IH|reflexivity].
Qed.
Lemma same_build f : snd (k_build_sprite f) = build_sprite f.
Proof.
  unfold k_build_sprite, build_sprite, k_collect_images, rounds_of. destruct (collect_images (f_frames f)) as [v m]. cbn [snd].
  apply snd_kbind; [|reflexivity]. apply snd_k_map. intros [k fr]. unfold k_build_frame, build_frame.
  apply snd_kbind; [apply same_cels|reflexivity].
Qed.
Lemma same_load c i : snd (k_load c i) = load c i.
Proof.
  unfold k_load, load. apply snd_kbind; [|apply same_build]. unfold k_map_err. cbn [snd]. now rewrite same_parse_file.
Qed.

(** ** The count *)

Definition within {E A} (m : kout E A) (b : Z) : Prop := 0 <= fst m <= b.
Lemma within_plain {E A} (m : out E A) : within (plain m) 0.
Proof. unfold within, plain. cbn. lia. Qed.
Lemma within_le {E A} (m : kout E A) b b' : within m b -> b <= b' -> within m b'.
Proof. unfold within. lia. Qed.
Lemma within_bind {E A B} (m : kout E A) (k : A -> kout E B) b1 b2 : 0 <= b2 ->
  within m b1 -> (forall a, snd m = Ok a -> within (k a) b2) -> within (kbind m k) (b1 + b2).
Proof.
  intros Hb H K. unfold within, kbind in *. destruct (snd m) as [a|e|p]; cbn [fst]; [specialize (K a eq_refl)| |]; lia.
Qed.
Lemma within_then {E A B} (m : out E A) (k : A -> kout E B) b : 0 <= b ->
  (forall a, m = Ok a -> within (k a) b) -> within (kbind (plain m) k) b.
Proof. intros Hb K. change b with (0 + b). apply within_bind; [exact Hb|apply within_plain|exact K]. Qed.
Lemma within_last {E A B} (m : kout E A) (k : A -> out E B) b :
  within m b -> within (kbind m (fun a => plain (k a))) b.
Proof. intros H. rewrite <- (Z.add_0_r b). apply within_bind; [lia|exact H|intros; apply within_plain]. Qed.
Lemma within_round {E A} (m : kout E A) b : within m b -> within (round m) (1 + b).
Proof. unfold within, round. cbn [fst]. lia. Qed.
Lemma within_rounds {E A} n (m : kout E A) b : 0 <= n -> within m b -> within (rounds_of n m) (n + b).
Proof. unfold within, rounds_of. cbn [fst]. lia. Qed.
Lemma total_nonneg {A} (w : A -> Z) l : (forall a, 0 <= w a) -> 0 <= total w l.
Proof. intros H. induction l as [|a l IH]; [reflexivity|]. rewrite total_cons. specialize (H a). lia. Qed.
Lemma within_fold {E A B} (f : A -> B -> kout E A) w l : (forall b, 0 <= w b) ->
  (forall a b, In b l -> within (f a b) (w b)) -> forall a, within (k_fold f l a) (total (fun b => 1 + w b) l).
Proof.
  intros W. induction l as [|b l IH]; intros H a; [apply within_plain|]. cbn [k_fold]. rewrite total_cons.
  rewrite <- Z.add_assoc. apply within_round. apply within_bind; [apply total_nonneg; intros x; specialize (W x); lia|apply H; now left|].
  intros a' _. apply IH. intros; apply H; now right.
Qed.
Lemma within_map {E A B} (f : A -> kout E B) w l : (forall b, 0 <= w b) ->
  (forall a, In a l -> within (f a) (w a)) -> within (k_map f l) (total (fun b => 1 + w b) l).
Proof.
  intros W. induction l as [|b l IH]; intros H; [apply within_plain|]. cbn [k_map]. rewrite total_cons.
  rewrite <- Z.add_assoc. apply within_round. apply within_bind; [apply total_nonneg; intros x; specialize (W x); lia|apply H; now left|].
  intros a' _. apply within_last. apply IH. intros; apply H; now right.
Qed.
Lemma total_le {A} (v w : A -> Z) l : (forall a, v a <= w a) -> total v l <= total w l.
Proof. intros H. induction l as [|a l IH]; [reflexivity|]. rewrite !total_cons. specialize (H a). lia. Qed.
Lemma total_one {A} (l : list A) : total (fun _ => 1 + 0) l = zlen l.
Proof. induction l as [|a l IH]; [reflexivity|]. rewrite total_cons, zlen_cons, IH. lia. Qed.
Lemma total_flat {A B} (w : B -> Z) (g : A -> list B) l : total w (flat_map g l) = total (fun a => total w (g a)) l.
Proof.
  assert (P : forall x y, total w (x ++ y) = total w x + total w y).
  { induction x as [|b x IH]; intros y; [reflexivity|]. cbn [app]. rewrite !total_cons, IH. lia. }
  induction l as [|a l IH]; [reflexivity|]. cbn [flat_map]. now rewrite P, total_cons, IH.
Qed.
Lemma zlen_pos {A} (l : list A) : 0 <= zlen l.
Proof. unfold zlen. lia. Qed.
Lemma combine_le {A B} (l : list A) (l' : list B) : zlen (combine l l') <= zlen l.
Proof. unfold zlen. rewrite combine_length. lia. Qed.

(** The palette *)
Definition old_items (p : old_palette_chunk) : Z := total (fun q => 1 + zlen (pk_colors q)) (op_packets p).
Lemma within_palette t chunks p :
  within (k_process_palette_chunks t chunks p) (total (fun q => 1 + zlen (pc_entries q)) chunks).
Proof.
  unfold k_process_palette_chunks. rewrite <- (Z.add_0_r (total _ _)). apply within_bind; [lia| |intros [q []] _; apply within_plain].
  apply within_fold; [intros; apply zlen_pos|]. intros st ch _.
  eapply within_le; [apply within_fold with (w := fun _ => 0); [lia|]|rewrite total_one; apply combine_le].
  intros [q ok] [e i] _. apply within_last with (k := fun p => Ok (p, true)). apply within_plain.
Qed.
Lemma within_old_packet c st pk : within (k_old_packet c st pk) (zlen (pk_colors pk)).
Proof.
  destruct st as [[p i] ok]. unfold k_old_packet. pose proof (zlen_pos (pk_colors pk)).
  do 2 (apply within_then; [assumption|intros ? _]). destruct (256 <? a0); [apply (within_le _ 0); [apply within_plain|assumption]|].
  unfold k_old_packet_colors. rewrite <- total_one. apply within_fold with (w := fun _ => 0); [lia|].
  intros [[q j] o] col _. do 2 (apply within_then; [lia|intros ? _]). apply within_plain.
Qed.
Lemma old_items_nonneg p : 0 <= old_items p.
Proof. apply total_nonneg. intros q. pose proof (zlen_pos (pk_colors q)). lia. Qed.
Lemma within_old c t chunks p :
  within (k_process_old_palette_chunks c t chunks p) (total (fun q => 1 + old_items q) chunks).
Proof.
  unfold k_process_old_palette_chunks. rewrite <- (Z.add_0_r (total _ _)). apply within_bind; [lia| |intros [q []] _; apply within_plain].
  apply within_fold; [apply old_items_nonneg|]. intros [q ok] ch _. rewrite <- (Z.add_0_r (old_items ch)).
  apply within_bind; [lia| |intros [[q' j] o] _; apply within_plain].
  apply within_fold; [intros; apply zlen_pos|]. intros; apply within_old_packet.
Qed.

(** ** What a file holds, by its length *)

Definition light_items (x : chunk) : Z :=
  match x with
  | ChPalette0004 p | ChPalette0011 p => old_items p
  | ChTags t => zlen (tc_tags t)
  | ChPalette p => zlen (pc_entries p)
  | _ => 0
  end.
Definition light_frame (f : raw_frame) : Z := total (fun x => 1 + light_items x) (rf_chunks f).
Definition light (fs : list raw_frame) : Z := total (fun f => 1 + light_frame f) fs.
Lemma light_nonneg x : 0 <= light_items x.
Proof. destruct x; cbn [light_items]; try apply zlen_pos; try apply old_items_nonneg; lia. Qed.
Lemma light_frame_nonneg f : 0 <= light_frame f.
Proof. apply total_nonneg. intros x. pose proof (light_nonneg x). lia. Qed.

Section Lengths.
Context (map_error : bytes -> Z -> nom_err -> Prop).
Lemma light_size x e : chunk_l map_error x e -> 1 + light_items x <= zlen e.
Proof.
  intros H. pose proof (chunk_size _ x e H) as S. destruct H as (d & _ & _ & E).
  destruct x; cbn [light_items chunk_items] in *; try exact S; rewrite E; rewrite !zlen_app, !zlen_le; poslen; lia.
Qed.
Lemma light_frame_size f e : frame_l map_error f e -> 1 + light_frame f <= zlen e.
Proof.
  intros (old & new & i1 & body & i2 & _ & _ & _ & _ & _ & _ & H & ->).
  apply (seq_total _ _ _ _ light_size) in H. unfold light_frame.
  rewrite !zlen_app, !zlen_le. poslen. lia.
Qed.
Lemma light_file_size f e : raw_file_l map_error f e -> 128 + light (rw_frames f) <= zlen e.
Proof.
  intros (e1 & e2 & H1 & _ & H2 & ->). apply (header_len map_error) in H1. rewrite zlen_app, H1.
  apply (seq_total _ _ _ _ light_frame_size) in H2. unfold light. lia.
Qed.
End Lengths.

Definition layers_of (fs : list raw_frame) : Z := total (fun f => layers_in (rf_chunks f)) fs.
Lemma layers_of_count f : layer_count f = layers_of (rw_frames f).
Proof.
  unfold layer_count, spec_all_layers, layers_of. induction (rw_frames f) as [|x l IH]; [reflexivity|].
  cbn [flat_map]. now rewrite total_cons, zlen_app, spec_layers_len, IH.
Qed.
Lemma raw_numbers c i f : cfg_ok c -> is_bytes i -> addressable c i -> parse_raw_file c i = Ok f ->
  128 + light (rw_frames f) <= zlen i /\ 128 + 16 * zlen (rw_frames f) + 24 * layers_of (rw_frames f) <= zlen i.
Proof.
  intros Hc Hb Ha H. apply parse_raw_file_iff in H; try assumption. split; [eapply light_file_size; eassumption|].
  rewrite <- layers_of_count. eapply raw_layers; eassumption.
Qed.

(** ** The stages *)

Lemma total_pass fs : 0 <= pass fs <= light fs.
Proof.
  unfold pass, light. induction fs as [|f fs IH]; [cbn; lia|]. cbn [fold_right]. rewrite total_cons.
  assert (zlen (rf_chunks f) <= light_frame f).
  { unfold light_frame. rewrite <- total_one. apply total_le. intros x. pose proof (light_nonneg x). lia. }
  pose proof (zlen_pos (rf_chunks f)). unfold pass in IH. lia.
Qed.
Lemma kind_light {A} (g : chunk -> list A) (w : A -> Z) fs :
  (forall x, total w (g x) <= 1 + light_items x) ->
  total w (flat_map (fun f => flat_map g (rf_chunks f)) fs) <= light fs.
Proof.
  intros H. rewrite total_flat. unfold light. apply total_le. intros f. rewrite total_flat.
  unfold light_frame. pose proof (total_le _ _ (rf_chunks f) H). lia.
Qed.
Lemma light_all_nonneg fs : 0 <= light fs.
Proof. apply total_nonneg. intros f. pose proof (light_frame_nonneg f). lia. Qed.
Lemma within_create c h fs : within (k_create_palette c h fs) (4 * light fs).
Proof.
  pose proof (total_pass fs) as [P1 P2]. pose proof (light_all_nonneg fs) as L. unfold k_create_palette.
  apply (within_le _ (pass fs + 3 * light fs)); [|lia]. apply within_rounds; [exact P1|].
  assert (K0 : total (fun q => 1 + zlen (pc_entries q)) (palette_chunks fs) <= light fs).
  { apply kind_light. intros x. pose proof (light_nonneg x). destruct x; cbn [light_items] in *; rewrite ?total_cons;
      change (total _ (@nil palette_chunk)) with 0; lia. }
  assert (K1 : total (fun q => 1 + old_items q) (palette0004_chunks fs) <= light fs).
  { apply kind_light. intros x. pose proof (light_nonneg x). destruct x; cbn [light_items] in *; rewrite ?total_cons;
      change (total _ (@nil old_palette_chunk)) with 0; lia. }
  assert (K2 : total (fun q => 1 + old_items q) (palette0011_chunks fs) <= light fs).
  { apply kind_light. intros x. pose proof (light_nonneg x). destruct x; cbn [light_items] in *; rewrite ?total_cons;
      change (total _ (@nil old_palette_chunk)) with 0; lia. }
  destruct (palette_chunks fs) as [|p0 l0]; [|eapply within_le; [apply within_palette|lia]].
  apply (within_le _ (pass fs + 2 * light fs)); [|lia]. apply within_rounds; [exact P1|].
  destruct (palette0004_chunks fs) as [|p1 l1]; [|eapply within_le; [apply within_old|lia]].
  apply (within_le _ (pass fs + 1 * light fs)); [|lia]. apply within_rounds; [exact P1|].
  destruct (palette0011_chunks fs) as [|p2 l2]; [|eapply within_le; [apply within_old|lia]].
  eapply within_le; [apply within_plain|lia].
Qed.

(** The loop over the chunks *)
Definition tags_in (cs : list chunk) : Z := total (fun x => match x with ChTags t => zlen (tc_tags t) | _ => 0 end) cs.
Lemma tags_in_cons x cs : tags_in (x :: cs) = match x with ChTags t => zlen (tc_tags t) | _ => 0 end + tags_in cs.
Proof. reflexivity. Qed.
Lemma layers_in_cons x cs : layers_in (x :: cs) = match x with ChLayer _ => 1 | _ => 0 end + layers_in cs.
Proof. reflexivity. Qed.
Lemma tags_in_nonneg cs : 0 <= tags_in cs.
Proof. apply total_nonneg. intros []; try lia. apply zlen_pos. Qed.
Lemma layers_in_nonneg cs : 0 <= layers_in cs.
Proof. apply total_nonneg. intros []; lia. Qed.

Lemma next_rest it : exists ys, it = ys ++ snd (next_user_data it) /\ tags_in ys = 0 /\ layers_in ys = 0.
Proof.
  destruct it as [|[] it]; try (exists []; repeat split; reflexivity).
  eexists [_]. repeat split; reflexivity.
Qed.
Lemma tags_in_app a b : tags_in (a ++ b) = tags_in a + tags_in b.
Proof. apply total_app. Qed.
Lemma layers_in_app a b : layers_in (a ++ b) = layers_in a + layers_in b.
Proof. apply total_app. Qed.

Lemma tags_loop_facts ts : forall it, let r := k_tags_loop ts it in
  0 <= fst r <= zlen ts /\ zlen (fst (snd r)) = zlen ts /\
  exists ys, it = ys ++ snd (snd r) /\ tags_in ys = 0 /\ layers_in ys = 0.
Proof.
  induction ts as [|t ts IH]; intros it; cbn zeta.
  { cbn [k_tags_loop fst snd]. unfold zlen. cbn [length]. split; [lia|]. split; [reflexivity|]. now exists []. }
  cbn [k_tags_loop]. destruct (next_rest it) as (ys & E & T & L). destruct (next_user_data it) as [[u|] it'] eqn:N; cbn [snd] in E.
  - specialize (IH it'). cbn zeta in IH. destruct (k_tags_loop ts it') as [n [ts' it'']]. cbn [fst snd] in *.
    destruct IH as (A & B & ys' & E' & T' & L'). rewrite !zlen_cons. split; [lia|]. split; [lia|].
    exists (ys ++ ys'). rewrite tags_in_app, layers_in_app, E, E', app_assoc. split; [reflexivity|lia].
  - cbn [fst snd]. rewrite !zlen_cons. pose proof (zlen_pos ts). split; [lia|]. split; [lia|]. now exists ys.
Qed.

Lemma zlen_one {A} (x : A) : zlen [x] = 1.
Proof. reflexivity. Qed.
(** One round: its cost, and what the state and the rest can have grown by. *)
Lemma chunk_step_facts first s ch it : let r := k_chunk_step first s ch it in
  let s' := fst (snd r) in let tags := match ch with ChTags t => zlen (tc_tags t) | _ => 0 end in
  0 <= fst r <= 2 * tags /\ zlen (st_tags s') = zlen (st_tags s) + tags /\
  zlen (st_layers s') = zlen (st_layers s) + match ch with ChLayer _ => 1 | _ => 0 end /\
  zlen (st_cels s') <= zlen (st_cels s) + 1 /\
  exists ys, it = ys ++ snd (snd r) /\ tags_in ys = 0 /\ layers_in ys = 0.
Proof.
  destruct (next_rest it) as (ys & E & T & L).
  destruct ch; cbn zeta; cbn [k_chunk_step chunk_step fst snd];
    try (split; [lia|]; split; [lia|]; split; [lia|]; split; [lia|]; now exists []);
    try (destruct (first && _); [destruct (next_user_data it) as [u it']|]; cbn [fst snd st_set_user_data st_tags st_layers st_cels] in *;
         (split; [lia|]; split; [lia|]; split; [lia|]; split; [lia|]; (now exists ys) || now exists []));
    try (destruct (next_user_data it) as [u it']; cbn [fst snd st_push_layer st_push_cel st_push_slice st_tags st_layers st_cels] in *;
         rewrite ?zlen_app, ?zlen_one; (split; [lia|]; split; [lia|]; split; [lia|]; split; [lia|]; now exists ys)).
  pose proof (tags_loop_facts (tc_tags t) it) as F. cbn zeta in F. destruct (k_tags_loop (tc_tags t) it) as [n [ts it']].
  cbn [fst snd st_extend_tags st_tags st_layers st_cels] in *. destruct F as (A & B & F). rewrite zlen_app.
  split; [lia|]. split; [lia|]. split; [lia|]. split; [lia|]. exact F.
Qed.

Lemma chunk_loop_facts first fuel : forall s it,
  within (k_chunk_loop fuel first s it) (zlen it + 2 * tags_in it) /\
  forall s', snd (k_chunk_loop fuel first s it) = Ok s' ->
    zlen (st_tags s') = zlen (st_tags s) + tags_in it /\ zlen (st_layers s') = zlen (st_layers s) + layers_in it /\
    zlen (st_cels s') <= zlen (st_cels s) + zlen it.
Proof.
  induction fuel as [|fuel IH]; intros s [|ch it].
  1,3: cbn [k_chunk_loop]; split; [apply within_plain|];
    cbn [plain snd]; intros s' [= <-]; change (zlen (@nil chunk)) with 0; change (tags_in []) with 0; change (layers_in []) with 0; lia.
  { cbn [k_chunk_loop]. split; [|discriminate]. eapply within_le; [apply within_plain|].
    pose proof (zlen_pos (ch :: it)). pose proof (tags_in_nonneg (ch :: it)). lia. }
  cbn [k_chunk_loop]. pose proof (chunk_step_facts first s ch it) as F. cbn zeta in F.
  destruct (k_chunk_step first s ch it) as [n [s1 it1]]. cbn [fst snd] in F. destruct F as (A & B & C & D & ys & -> & T & L).
  specialize (IH s1 it1). destruct IH as [I1 I2].
  rewrite tags_in_cons, layers_in_cons, zlen_cons, tags_in_app, layers_in_app, zlen_app, T, L.
  pose proof (zlen_pos ys). split.
  - unfold within, round, rounds_of in *. cbn [fst] in *. lia.
  - unfold round, rounds_of. cbn [snd]. intros s' E. destruct (I2 s' E) as (U & V & W). lia.
Qed.

(** ** The loop over the frames *)
Definition chunks_of (fs : list raw_frame) : Z := total (fun f => zlen (rf_chunks f)) fs.
Definition tags_of (fs : list raw_frame) : Z := total (fun f => tags_in (rf_chunks f)) fs.
Definition cels_of (frames : list (Z * list cel_chunk)) : Z := total (fun f => zlen (snd f)) frames.

Lemma frames_facts : forall fs frames s, let m := k_fold k_frame_step fs (frames, s) in
  within m (zlen fs + chunks_of fs + 2 * tags_of fs) /\
  forall frames' s', snd m = Ok (frames', s') ->
    zlen frames' = zlen frames + zlen fs /\ cels_of frames' <= cels_of frames + chunks_of fs /\
    zlen (st_tags s') = zlen (st_tags s) + tags_of fs /\ zlen (st_layers s') = zlen (st_layers s) + layers_of fs.
Proof.
  induction fs as [|f fs IH]; intros frames s; cbn zeta.
  { split; [apply within_plain|]. cbn [k_fold plain snd]. intros frames' s' [= <- <-].
    unfold chunks_of, tags_of, layers_of, zlen. cbn. lia. }
  cbn [k_fold]. unfold chunks_of, tags_of, layers_of in *. rewrite !total_cons, zlen_cons.
  assert (N1 : 0 <= total (fun f => zlen (rf_chunks f)) fs) by (apply total_nonneg; intros; apply zlen_pos).
  assert (N2 : 0 <= total (fun f => tags_in (rf_chunks f)) fs) by (apply total_nonneg; intros; apply tags_in_nonneg).
  pose proof (zlen_pos fs) as N3. pose proof (zlen_pos (rf_chunks f)) as N4. pose proof (tags_in_nonneg (rf_chunks f)) as N5.
  cbn [k_frame_step].
  set (first := match frames with [] => true | _ :: _ => false end).
  destruct (chunk_loop_facts first (length (rf_chunks f)) (st_clear_cels s) (rf_chunks f)) as [L1 L2].
  unfold within, round, kbind, plain in *. cbn [fst snd].
  destruct (snd (k_chunk_loop (length (rf_chunks f)) first (st_clear_cels s) (rf_chunks f))) as [s1|e|p] eqn:E; cbn [fst snd];
    [|split; [lia|discriminate]|split; [lia|discriminate]].
  destruct (L2 s1 eq_refl) as (T & Ly & C). cbn [st_clear_cels st_tags st_layers st_cels] in T, Ly, C.
  destruct (IH (frames ++ [(rf_duration f, st_cels s1)]) s1) as [I1 I2]. split; [lia|].
  intros frames' s' X. destruct (I2 frames' s' X) as (A & B & D & G). unfold cels_of in *.
  rewrite total_app, total_cons in B. cbn [snd] in B. change (total _ (@nil (Z * list cel_chunk))) with 0 in B.
  rewrite zlen_app, zlen_one in A. change (zlen (@nil cel_chunk)) with 0 in C. lia.
Qed.

Lemma light_covers fs : zlen fs + chunks_of fs + tags_of fs <= light fs /\ 0 <= tags_of fs /\ 0 <= chunks_of fs /\
  0 <= layers_of fs <= chunks_of fs.
Proof.
  unfold chunks_of, tags_of, layers_of, light. induction fs as [|f fs IH]; [unfold zlen; cbn; lia|].
  rewrite !total_cons, zlen_cons.
  assert (zlen (rf_chunks f) + tags_in (rf_chunks f) <= light_frame f /\ layers_in (rf_chunks f) <= zlen (rf_chunks f)).
  { unfold light_frame. induction (rf_chunks f) as [|x l IHl]; [unfold zlen; cbn; lia|].
    rewrite total_cons, zlen_cons, tags_in_cons, layers_in_cons. pose proof (light_nonneg x).
    destruct x; cbn [light_items] in *; lia. }
  pose proof (tags_in_nonneg (rf_chunks f)). pose proof (layers_in_nonneg (rf_chunks f)). pose proof (zlen_pos (rf_chunks f)). lia.
Qed.

(** ** The places for cels *)
Lemma within_insert n cs : 0 <= n -> within (k_insert_cels n cs) (n + zlen cs).
Proof.
  intros Hn. unfold k_insert_cels. apply within_rounds; [exact Hn|]. rewrite <- total_one.
  apply within_fold with (w := fun _ => 0); [lia|]. intros cels cel _. destruct (n <? _); apply within_plain.
Qed.
(** At least this, if all goes well *)
Definition at_least {E A} (m : kout E A) (b : Z) : Prop := forall a, snd m = Ok a -> b <= fst m.
Lemma least_map {E A B} (f : A -> kout E B) b l : 0 <= b -> (forall a, 0 <= fst (f a) /\ at_least (f a) b) ->
  0 <= fst (k_map f l) /\ forall r, snd (k_map f l) = Ok r -> zlen r = zlen l /\ zlen l * b <= fst (k_map f l).
Proof.
  intros Hb H. induction l as [|a l [N IH]].
  { cbn [k_map plain fst snd]. split; [lia|]. intros r [= <-]. unfold zlen. cbn. lia. }
  cbn [k_map]. destruct (H a) as [N1 H1]. unfold round, kbind, plain. cbn [fst snd].
  destruct (snd (f a)) as [x|e|p] eqn:E1; cbn [fst snd]; [|split; [lia|discriminate]|split; [lia|discriminate]].
  destruct (snd (k_map f l)) as [xs|e|p] eqn:E2; cbn [fst snd]; [|split; [lia|discriminate]|split; [lia|discriminate]].
  split; [lia|]. intros r [= <-]. specialize (H1 x E1). destruct (IH xs eq_refl) as [Z1 Z2]. rewrite !zlen_cons. lia.
Qed.

(** What follows the raw file *)
Definition k_rest (c : cfg) (raw : raw_file) : kout nom_err file :=
  let% pal :=
    match h_color_depth (rw_header raw) with
    | Indexed =>
        let% p := k_map_err (fun e => NFailure (EPalette e))
                          (k_create_palette c (rw_header raw) (rw_frames raw)) in
        plain (Ok (Some p))
    | _ => plain (Ok None)
    end in
  let% (frames, s) :=
    k_fold k_frame_step (rw_frames raw)
      ([], {| st_cels := []; st_layers := []; st_tags := []; st_slices := [];
              st_user_data := None |}) in
  let% frames :=
    k_map (fun '(duration, cs) =>
      let% cels := k_insert_cels (zlen (st_layers s)) cs in
      plain (Ok {| fr_duration := duration; fr_cels := cels |})) frames in
  plain (Ok {| f_header := rw_header raw; f_palette := pal; f_layers := st_layers s;
        f_frames := frames; f_tags := st_tags s; f_slices := st_slices s;
        f_user_data := st_user_data s |}).
Lemma parse_file_split c i : k_parse_file c i = kbind (n_parse_raw_file c i) (k_rest c).
Proof. reflexivity. Qed.

Lemma places_facts (frames : list (Z * list cel_chunk)) n : 0 <= n ->
  let m := k_map (fun '(duration, cs) => let% cels := k_insert_cels n cs in
      plain (Ok {| fr_duration := duration; fr_cels := cels |})) frames in
  within m (zlen frames * (1 + n) + cels_of frames) /\
  forall r, snd m = Ok r -> zlen r = zlen frames /\ zlen frames * n <= fst m.
Proof.
  intros Hn. cbn zeta. split.
  - eapply within_le; [apply within_map with (w := fun f => n + zlen (snd f))|].
    + intros [d cs]. pose proof (zlen_pos cs). cbn [snd]. lia.
    + intros [d cs] _. cbn [snd]. apply within_last with (k := fun cels => Ok {| fr_duration := d; fr_cels := cels |}).
      now apply within_insert.
    + unfold cels_of. induction frames as [|f frames IH]; [unfold zlen; cbn; lia|]. rewrite !total_cons, zlen_cons. lia.
  - apply least_map; [exact Hn|]. intros [d cs]. pose proof (within_insert n cs Hn) as [W _].
    unfold at_least, kbind, k_insert_cels, rounds_of, plain in *. cbn [fst snd] in *.
    destruct (snd (k_fold _ cs _)); cbn [fst snd].
    2,3: split; [exact W|discriminate].
    split; [lia|]. intros _ _.
    match goal with |- context [fst (k_fold ?f cs ?a)] => assert (0 <= fst (k_fold f cs a)) end; [|lia].
    eapply (within_fold _ (fun _ => 0)); [lia|]. intros cels cel _. destruct (n <? _); apply within_plain.
Qed.

Lemma bind_cases {E A B} (m : kout E A) (k : A -> kout E B) (P : Z -> out E B -> Prop) :
  (forall a, snd m = Ok a -> P (fst m + fst (k a)) (snd (k a))) -> (forall e, P (fst m) (Err e)) -> (forall p, P (fst m) (Panic p)) ->
  P (fst (kbind m k)) (snd (kbind m k)).
Proof. intros H1 H2 H3. unfold kbind. destruct (snd m) eqn:X; cbn [fst snd]; auto. Qed.
Lemma rest_facts c raw : let fs := rw_frames raw in
  within (k_rest c raw) (6 * light fs + zlen fs * layers_of fs) /\
  forall f, snd (k_rest c raw) = Ok f ->
    zlen fs * layers_of fs <= fst (k_rest c raw) /\
    zlen (f_frames f) = zlen fs /\ zlen (f_layers f) = layers_of fs /\ zlen (f_tags f) = tags_of fs.
Proof.
  cbn zeta. set (fs := rw_frames raw). unfold k_rest.
  match goal with |- context [kbind ?p _] =>
    match p with context [h_color_depth] => set (pal := p) end end.
  assert (HP : within pal (4 * light fs)).
  { unfold pal. pose proof (light_all_nonneg fs). destruct (h_color_depth _); try (eapply within_le; [apply within_plain|lia]).
    apply within_last with (k := fun p => Ok (Some p)). apply within_create. }
  destruct (light_covers fs) as (C1 & C2 & C3 & C4).
  destruct (frames_facts fs [] {| st_cels := []; st_layers := []; st_tags := []; st_slices := []; st_user_data := None |}) as [F1 F2].
  fold fs. set (m := k_fold k_frame_step fs _) in *. cbn [st_layers st_tags] in F2.
  pose proof (zlen_pos fs) as Nf. assert (Nm : 0 <= zlen fs * layers_of fs) by (apply Z.mul_nonneg_nonneg; lia).
  unfold within in *.
  match goal with |- 0 <= fst ?x <= ?b /\ (forall f, snd _ = Ok f -> ?lo <= _ /\ _) =>
    apply (bind_cases _ _ (fun z o => 0 <= z <= b /\ forall f, o = Ok f -> lo <= z /\
      zlen (f_frames f) = zlen fs /\ zlen (f_layers f) = layers_of fs /\ zlen (f_tags f) = tags_of fs)) end;
    [intros pl _|intros; split; [lia|discriminate]..].
  match goal with |- 0 <= _ + fst ?x <= ?b /\ (forall f, snd _ = Ok f -> ?lo <= _ /\ _) =>
    apply (bind_cases _ _ (fun z o => 0 <= fst pal + z <= b /\ forall f, o = Ok f -> lo <= fst pal + z /\
      zlen (f_frames f) = zlen fs /\ zlen (f_layers f) = layers_of fs /\ zlen (f_tags f) = tags_of fs)) end;
    [intros [frames s] Em|intros; split; [lia|discriminate]..].
  destruct (F2 frames s Em) as (A & B & D & G). change (zlen (@nil tag_)) with 0 in D. change (zlen (@nil layer_chunk)) with 0 in G.
  change (zlen (@nil (Z * list cel_chunk))) with 0 in A. change (cels_of []) with 0 in B.
  destruct (places_facts frames (zlen (st_layers s)) (zlen_pos _)) as [P1 P2]. unfold within in P1.
  set (q := k_map _ frames) in *. unfold plain.
  assert (zlen (st_layers s) = layers_of fs) as E by lia. assert (zlen frames = zlen fs) as E2 by lia. rewrite E, E2 in *.
  unfold kbind. destruct (snd q) as [r|e|p]; cbn [fst snd]; [|split; [lia|discriminate]..].
  destruct (P2 r eq_refl) as [P3 P4]. split; [lia|]. intros f [= <-]. cbn [f_frames f_layers f_tags]. lia.
Qed.

(** ** All together *)
Lemma cels_steps {E A B} (f : A -> out E B) l : within (k_cels f l) (zlen l) /\ at_least (k_cels f l) (zlen l).
Proof.
  unfold within, at_least. induction l as [|[a|] l [I1 I2]]; cbn [k_cels].
  - unfold plain, zlen. cbn. split; [lia|]. intros; lia.
  - rewrite zlen_cons. unfold round, kbind, plain. cbn [fst snd]. destruct (f a); cbn [fst snd]; [|split; [lia|discriminate]..].
    destruct (snd (k_cels f l)) as [x|e|p]; cbn [fst snd]; [|split; [lia|discriminate]..]. specialize (I2 x eq_refl). split; [lia|intros; lia].
  - rewrite zlen_cons. unfold round. cbn [fst snd]. split; [lia|]. intros x X. specialize (I2 x X). lia.
Qed.
Lemma frames_steps v m : forall fs, let q := k_map (k_build_frame v m) fs in
  within q (total (fun f => 1 + zlen (fr_cels (snd f))) fs) /\
  forall r, snd q = Ok r -> total (fun f => zlen (fr_cels (snd f))) fs <= fst q.
Proof.
  cbn zeta. intros fs. split.
  - apply within_map; [intros; apply zlen_pos|]. intros f _. unfold k_build_frame.
    apply within_last with (k := fun cels => Ok {| sf_duration := fr_duration (snd f); sf_origin := (0, 0); sf_cels := cels |}).
    apply cels_steps.
  - induction fs as [|f fs IH]; [cbn; intros; lia|]. rewrite total_cons. cbn [k_map].
    destruct (cels_steps (build_cel v m (fst f)) (fr_cels (snd f))) as [W L]. unfold within, at_least in *.
    unfold round. cbn [fst snd]. unfold k_build_frame, kbind, plain in *. cbn [fst snd] in *.
    destruct (snd (k_cels _ _)) as [x|e|p]; cbn [fst snd]; [|discriminate..].
    destruct (snd (k_map _ fs)) as [y|e|p]; cbn [fst snd]; [|discriminate..].
    intros r _. specialize (L x eq_refl). specialize (IH y eq_refl). lia.
Qed.
Lemma enumerate_snd {A} (l : list A) : map snd (enumerate l) = l.
Proof.
  unfold enumerate. revert l. assert (H : forall (l : list A) k, map snd (combine (map Z.of_nat (seq k (length l))) l) = l).
  { induction l as [|a l IH]; intros k; [reflexivity|]. cbn [length seq map combine snd]. now rewrite IH. }
  intros l. apply (H l 0%nat).
Qed.
Lemma total_map {A B} (w : B -> Z) (g : A -> B) l : total w (map g l) = total (fun a => w (g a)) l.
Proof. induction l as [|a l IH]; [reflexivity|]. cbn [map]. now rewrite !total_cons, IH. Qed.
Lemma total_plus_one {A} (w : A -> Z) l : total (fun a => 1 + w a) l = zlen l + total w l.
Proof. induction l as [|a l IH]; [reflexivity|]. rewrite !total_cons, zlen_cons, IH. lia. Qed.

Lemma build_facts f :
  within (k_build_sprite f) (zlen (f_layers f) + zlen (f_tags f) + 2 * zlen (f_frames f) + 2 * cel_slots f) /\
  at_least (k_build_sprite f) (2 * cel_slots f).
Proof.
  unfold k_build_sprite, k_collect_images. destruct (collect_images (f_frames f)) as [v m].
  destruct (frames_steps v m (enumerate (f_frames f))) as [W L]. set (q := k_map _ _) in *.
  assert (S : total (fun x : Z * frame => zlen (fr_cels (snd x))) (enumerate (f_frames f)) = cel_slots f).
  { rewrite <- (total_map (fun y => zlen (fr_cels y)) snd), enumerate_snd. reflexivity. }
  rewrite (total_plus_one (fun x : Z * frame => zlen (fr_cels (snd x)))), S in W.
  assert (N : zlen (enumerate (f_frames f)) = zlen (f_frames f)).
  { unfold zlen. rewrite <- (enumerate_snd (f_frames f)) at 2. now rewrite map_length. }
  rewrite N in W. rewrite S in L.
  assert (C : fold_right (fun fr n => 1 + zlen (fr_cels fr) + n) 0 (f_frames f) = zlen (f_frames f) + cel_slots f).
  { change (fold_right _ 0 (f_frames f)) with (total (fun fr => 1 + zlen (fr_cels fr)) (f_frames f)). now rewrite total_plus_one. }
  rewrite C. assert (0 <= cel_slots f) by (apply total_nonneg; intros; apply zlen_pos).
  pose proof (zlen_pos (f_layers f)). pose proof (zlen_pos (f_tags f)). pose proof (zlen_pos (f_frames f)).
  unfold within, at_least, rounds_of in *. cbn [fst snd] in *.
  unfold kbind, plain. destruct (snd q) as [r|e|p]; cbn [fst snd]; [|split; [lia|discriminate]..].
  specialize (L r eq_refl). split; [lia|]. intros; lia.
Qed.

Lemma square_bound F L n : 0 <= F -> 0 <= L -> 128 + 16 * F + 24 * L <= n -> 3 * (F * L) <= n * n / 512.
Proof.
  intros HF HL H. apply Z.div_le_lower_bound; [lia|].
  assert (E : (16 * F + 24 * L) * (16 * F + 24 * L) <= n * n) by (apply Z.mul_le_mono_nonneg; lia).
  assert (0 <= (16 * F - 24 * L) * (16 * F - 24 * L)) by apply Z.square_nonneg. lia.
Qed.

Lemma load_count c i : cfg_ok c -> is_bytes i -> addressable c i ->
  0 <= fst (k_load c i) <= 13 * zlen i + 5 + zlen i * zlen i / 512 /\
  forall s, load c i = Ok s -> 3 * cel_slots (af_file s) <= fst (k_load c i) <= 13 * zlen i + 5 + 3 * cel_slots (af_file s).
Proof.
  intros Hc Hb Ha. pose proof (same_load c i) as SL. rewrite <- SL. clear SL.
  pose proof (zlen_pos i) as Hn. assert (Q : 0 <= zlen i * zlen i / 512) by (apply Z.div_pos; nia).
  unfold k_load. pose proof (same_parse_file c i) as SP. rewrite parse_file_split in *.
  destruct (raw_file_steps c i) as [S [R0 R1]].
  destruct (snd (n_parse_raw_file c i)) as [raw|e|p] eqn:ER.
  2,3: unfold kbind at 2 4 6, k_map_err; rewrite ER; cbn [fst snd map_err]; unfold kbind; cbn [fst snd]; split; [lia|discriminate].
  symmetry in S. destruct (raw_numbers c i raw Hc Hb Ha S) as [N1 N2].
  destruct (rest_facts c raw) as [W1 W2]. set (fs := rw_frames raw) in *.
  destruct (light_covers fs) as (C1 & C2 & C3 & C4). pose proof (zlen_pos fs) as C5.
  pose proof (square_bound (zlen fs) (layers_of fs) (zlen i) C5 (proj1 C4) N2) as SQ.
  assert (Nm : 0 <= zlen fs * layers_of fs) by (apply Z.mul_nonneg_nonneg; lia).
  set (m := kbind (n_parse_raw_file c i) (k_rest c)) in *.
  assert (Em : fst m = fst (n_parse_raw_file c i) + fst (k_rest c raw) /\ snd m = snd (k_rest c raw)).
  { unfold m, kbind. rewrite ER. now split. }
  destruct Em as [E1 E2]. unfold within in W1.
  unfold k_map_err, kbind. cbn [fst snd]. destruct (snd m) as [f|e|p]; cbn [map_err fst snd]; [|split; [lia|discriminate]..].
  destruct (W2 f (eq_sym E2)) as (A & B & D & G). destruct (build_facts f) as [K1 K2]. unfold within, at_least in K1, K2.
  symmetry in SP. destruct (file_slots c i f Hc Hb Ha SP) as [CS _]. rewrite B, D in CS. rewrite CS, B, D, G in *.
  split; [lia|]. intros s X. specialize (K2 s X).
  assert (af_file s = f) as ->.
  { rewrite same_build in X. unfold build_sprite in X. destruct (collect_images _) as [v m']. destruct (map_out _ _); [|discriminate..].
    injection X as <-. reflexivity. }
  rewrite CS. lia.
Qed.

Theorem load_steps : forall c i, cfg_ok c -> is_bytes i -> addressable c i ->
  snd (k_load c i) = load c i /\ 0 <= fst (k_load c i) <= 13 * zlen i + 5 + zlen i * zlen i / 512.
Proof. intros c i Hc Hb Ha. split; [apply same_load|]. now apply load_count. Qed.
Theorem load_places : forall c i s, cfg_ok c -> is_bytes i -> addressable c i -> load c i = Ok s ->
  3 * cel_slots (af_file s) <= fst (k_load c i) <= 13 * zlen i + 5 + 3 * cel_slots (af_file s).
Proof. intros c i s Hc Hb Ha H. now apply load_count. Qed.
Theorem load_square : forall c n, cfg_ok c -> 0 < n -> 128 + 40 * n < 2 ^ (usize_bits c - 1) ->
  exists i s, is_bytes i /\ zlen i = 128 + 40 * n /\ load c i = Ok s /\ 3 * (n * n) <= fst (k_load c i).
Proof.
  intros c n Hc Hn Hu. destruct (slots_unbounded c n Hc Hn Hu) as (i & s & Hb & Hl & H & _ & E).
  exists i, s. split; [exact Hb|]. split; [exact Hl|]. split; [exact H|].
  assert (Ha : addressable c i) by (unfold addressable; rewrite Hl; exact Hu).
  pose proof (load_places c i s Hc Hb Ha H). rewrite E in *. lia.
Qed.
