(** Debug builds and release builds: whenever the debug build does not panic,
    the release build computes the same. *)
From Verif.Model Require Import Loader.

Definition better {E A} (m m' : out E A) : Prop := (exists q, m = Panic q) \/ m = m'.

Lemma better_refl {E A} (m : out E A) : better m m.
Proof. right. reflexivity. Qed.
Lemma better_panic {E A} q (m : out E A) : better (Panic q) m.
Proof. left. exists q. reflexivity. Qed.
Lemma better_bind {E A B} (m m' : out E A) (k k' : A -> out E B) :
  better m m' -> (forall a, better (k a) (k' a)) -> better (bind m k) (bind m' k').
Proof.
  intros [[q ->] | ->] Hk; [left; exists q; reflexivity|].
  destruct m' as [a|e|q]; [apply Hk|apply better_refl|apply better_refl].
Qed.
Lemma better_map_err {E F A} (f : E -> F) (m m' : out E A) : better m m' -> better (map_err f m) (map_err f m').
Proof. intros [[q ->] | ->]; [left; exists q; reflexivity|apply better_refl]. Qed.
Lemma better_fold {E A B} (f f' : A -> B -> out E A) l : (forall a b, better (f a b) (f' a b)) ->
  forall a, better (fold_out f l a) (fold_out f' l a).
Proof.
  intros Hf. induction l as [|b l IH]; intros a; cbn [fold_out]; [apply better_refl|].
  apply better_bind; [apply Hf|exact IH].
Qed.
Lemma better_map {E A B} (f f' : A -> out E B) l : (forall a, better (f a) (f' a)) ->
  better (map_out f l) (map_out f' l).
Proof.
  intros Hf. induction l as [|a l IH]; cbn [map_out]; [apply better_refl|].
  apply better_bind; [apply Hf|intros b]. apply better_bind; [exact IH|intros bs; apply better_refl].
Qed.
Lemma better_pmap {A B} (p p' : parser A) (f : A -> B) i : better (p i) (p' i) -> better (pmap p f i) (pmap p' f i).
Proof. intros H. apply better_bind; [exact H|intros [r a]; apply better_refl]. Qed.
Lemma better_cond {A} b (p p' : parser A) i : better (p i) (p' i) -> better (cond b p i) (cond b p' i).
Proof. intros H. unfold cond. destruct b; [apply better_pmap; exact H|apply better_refl]. Qed.
Lemma better_count {A} (p p' : parser A) n : (forall i, better (p i) (p' i)) ->
  forall i, better (count p n i) (count p' n i).
Proof.
  intros Hp. unfold count. induction (Z.to_nat n) as [|k IH]; intros i; cbn [count_nat]; [apply better_refl|].
  apply better_bind; [apply Hp|intros [r a]]. apply better_bind; [apply IH|intros [r' l]; apply better_refl].
Qed.
Lemma better_many_loop {A} (p p' : parser A) fuel : (forall i, better (p i) (p' i)) ->
  forall acc i, better (many_loop p fuel acc i) (many_loop p' fuel acc i).
Proof.
  intros Hp. induction fuel as [|f IH]; intros acc i; cbn [many_loop]; [apply better_refl|].
  destruct (Hp i) as [[q ->] | ->]; [apply better_panic|].
  destruct (p' i) as [[r a]|[e|e]|q]; try apply better_refl.
  destruct (length r =? length i)%nat; [apply better_refl|apply IH].
Qed.
Lemma better_many1 {A} (p p' : parser A) : (forall i, better (p i) (p' i)) ->
  forall i, better (many1 p i) (many1 p' i).
Proof.
  intros Hp i. unfold many1. destruct (Hp i) as [[q ->] | ->]; [apply better_panic|].
  destruct (p' i) as [[r a]|e|q]; try apply better_refl. apply better_many_loop. exact Hp.
Qed.

Section Profiles.
Variable w : Z.
Let d : cfg := {| debug := true; usize_bits := w |}.
Let r : cfg := {| debug := false; usize_bits := w |}.

Lemma checked_better {E} lo n z : @better E Z (checked d lo n z) (checked r lo n z).
Proof.
  unfold checked. destruct ((lo <=? z) && (z <? lo + 2 ^ n)); [apply better_refl|].
  apply better_panic.
Qed.
Lemma i32c_better {E} z : @better E Z (i32c d z) (i32c r z).
Proof. apply checked_better. Qed.
Lemma u8c_better {E} z : @better E Z (u8c d z) (u8c r z).
Proof. apply checked_better. Qed.
Lemma u32c_better {E} z : @better E Z (u32c d z) (u32c r z).
Proof. apply checked_better. Qed.
Lemma usizec_better {E} z : @better E Z (usizec d z) (usizec r z).
Proof. apply checked_better. Qed.

Ltac step :=
  match goal with
  | |- better ?x ?x => apply better_refl
  | |- better (bind _ _) (bind _ _) => apply better_bind; [|intros ?]
  | |- better (let '(_, _) := ?x in _) _ => destruct x
  | |- better (match ?x with _ => _ end) _ => destruct x
  | |- better (i32c _ _) _ => apply i32c_better
  | |- better (u8c _ _) _ => apply u8c_better
  | |- better (u32c _ _) _ => apply u32c_better
  | |- better (usizec _ _) _ => apply usizec_better
  | |- better (pmap _ _ _) _ => apply better_pmap
  | |- better (cond _ _ _) _ => apply better_cond
  | |- better (count _ _ _) _ => apply better_count; intros ?
  | |- better (map_err _ _) _ => apply better_map_err
  | |- better (fold_out _ _ _) _ => apply better_fold; intros ? ?
  | |- better (map_out _ _) _ => apply better_map; intros ?
  end.

(** ** Parsing *)
Lemma dword_as_usize_better i : better (parse_dword_as_usize d i) (parse_dword_as_usize r i).
Proof. apply better_refl. Qed.
Lemma values_better fuel :
  (forall i, better (parse_value d fuel i) (parse_value r fuel i)) /\
  (forall i, better (parse_vector d fuel i) (parse_vector r fuel i)) /\
  (forall i, better (parse_properties_map d fuel i) (parse_properties_map r fuel i)).
Proof.
  induction fuel as [|f [IHv [IHw IHm]]].
  - repeat split; intros i; apply better_refl.
  - repeat split; intros i; cbn [parse_value parse_vector parse_properties_map].
    + repeat step; apply IHv || apply IHw || apply IHm.
    + apply better_bind; [apply better_refl|intros [i1 n]]. apply better_bind; [apply better_refl|intros [i2 t]].
      destruct (t =? 0); [repeat step; apply IHv|].
      destruct (property_type_from_repr t) as [pt|]; [|apply better_refl].
      destruct pt; repeat step; apply IHw || apply IHm.
    + apply better_bind; [apply better_refl|intros [i1 n]]. apply better_bind; [apply better_refl|intros [i2 t]].
      apply better_bind; [|intros [i3 ps]; apply better_refl]. apply better_count. intros j.
      unfold parse_property. apply better_bind; [apply better_refl|intros [j1 s]].
      apply better_bind; [apply IHv|intros [j2 v]; apply better_refl].
Qed.
Lemma properties_maps_better i : better (parse_properties_maps d i) (parse_properties_maps r i).
Proof.
  unfold parse_properties_maps.
  apply better_bind; [apply better_refl|intros [i1 n]]. apply better_bind; [apply better_refl|intros [i2 t]].
  apply better_bind; [apply usizec_better|intros k]. apply better_bind; [apply better_refl|intros [i3 area]].
  destruct (better_count (parse_properties_map d (S (length area))) (parse_properties_map r (S (length area))) t
              (proj2 (proj2 (values_better _))) area) as [[q ->] | ->]; [apply better_panic|apply better_refl].
Qed.
Lemma user_data_better i : better (parse_user_data_chunk d i) (parse_user_data_chunk r i).
Proof.
  unfold parse_user_data_chunk.
  apply better_bind; [apply better_refl|intros [i1 n]]. apply better_bind; [apply better_refl|intros [i2 t]].
  apply better_bind; [apply better_refl|intros [i3 t3]].
  apply better_bind; [apply better_cond; apply properties_maps_better|intros [i4 ps]; apply better_refl].
Qed.
Lemma chunk_data_better t x : better (parse_chunk_data d t x) (parse_chunk_data r t x).
Proof.
  destruct t as [t|t]; [|apply better_refl]. destruct t; try apply better_refl. cbn [parse_chunk_data]. unfold just.
  apply better_bind; [apply user_data_better|intros [i a]; apply better_refl].
Qed.
Lemma chunk_better i : better (parse_chunk d i) (parse_chunk r i).
Proof.
  unfold parse_chunk. apply better_bind; [apply better_refl|intros [i1 n]].
  apply better_bind; [apply u32c_better|intros k]. apply better_bind; [apply better_refl|intros [i2 x]].
  apply better_bind; [apply better_refl|intros [i3 t]].
  apply better_bind; [apply chunk_data_better|intros ch; apply better_refl].
Qed.
Lemma rawframe_better i : better (parse_rawframe d i) (parse_rawframe r i).
Proof.
  unfold parse_rawframe. apply better_bind; [apply better_refl|intros [i1 n]].
  apply better_bind; [apply u32c_better|intros k]. apply better_bind; [apply better_refl|intros [i2 x]].
  do 5 (apply better_bind; [apply better_refl|intros [? ?]]).
  apply better_bind; [apply better_count; exact chunk_better|intros [? ?]; apply better_refl].
Qed.
Lemma raw_file_better i : better (parse_raw_file d i) (parse_raw_file r i).
Proof.
  unfold parse_raw_file. apply better_bind; [apply better_refl|intros [i1 h]].
  apply better_bind; [|intros [? ?]; apply better_refl].
  unfold parse_frames, complete, all_consuming.
  apply better_bind; [apply better_many1; exact rawframe_better|intros [i2 l]; apply better_refl].
Qed.

(** ** Assembly *)
Lemma old_palette_better t chs p :
  better (process_old_palette_chunks d t chs p) (process_old_palette_chunks r t chs p).
Proof.
  unfold process_old_palette_chunks. apply better_bind; [|intros [? ?]; apply better_refl].
  apply better_fold. intros [q ok] ch. apply better_bind; [|intros [[? ?] ?]; apply better_refl].
  apply better_fold. intros [[p1 k] ok1] pk. unfold old_packet.
  apply better_bind; [apply usizec_better|intros k1]. apply better_bind; [apply usizec_better|intros e].
  destruct (256 <? e); [apply better_refl|]. unfold old_packet_colors. apply better_fold. intros [[p2 k2] ok2] col.
  apply better_bind; [apply better_refl|intros p3]. apply better_bind; [apply usizec_better|intros k3; apply better_refl].
Qed.
Lemma palette_better h fs : better (create_palette d h fs) (create_palette r h fs).
Proof.
  unfold create_palette. destruct (palette_chunks fs); [|apply better_refl].
  destruct (palette0004_chunks fs); [|apply old_palette_better].
  destruct (palette0011_chunks fs); [apply better_refl|apply old_palette_better].
Qed.
Lemma file_better i : better (parse_file d i) (parse_file r i).
Proof.
  unfold parse_file. apply better_bind; [apply raw_file_better|intros raw].
  apply better_bind; [|intros pal; apply better_refl].
  destruct (h_color_depth (rw_header raw)); try apply better_refl.
  apply better_bind; [apply better_map_err; apply palette_better|intros p; apply better_refl].
Qed.
Lemma load_better i : better (load d i) (load r i).
Proof.
  unfold load. apply better_bind; [apply better_map_err; apply file_better|intros f; apply better_refl].
Qed.

(** ** Images *)
Lemma gray_better src t : better (grayscale_to_rgba d src t) (grayscale_to_rgba r src t).
Proof. unfold grayscale_to_rgba. apply better_bind; [apply usizec_better|intros n; apply better_refl]. Qed.
Lemma indexed_better src pal t : better (indexed_to_rgba d src pal t) (indexed_to_rgba r src pal t).
Proof. unfold indexed_to_rgba. apply better_bind; [apply usizec_better|intros n; apply better_refl]. Qed.
Lemma decode_better inflate f im t : better (decode_image d inflate f im t) (decode_image r inflate f im t).
Proof.
  unfold decode_image. destruct (h_color_depth (f_header f)); destruct (im_compressed im); try apply better_refl.
  - apply better_bind; [apply usizec_better|intros n]. apply better_bind; [apply usizec_better|intros m].
    apply better_bind; [apply better_refl|intros buf]. apply better_bind; [apply better_refl|intros buf'].
    apply gray_better.
  - apply gray_better.
  - apply better_bind; [apply usizec_better|intros n].
    apply better_bind; [apply better_refl|intros buf]. apply better_bind; [apply better_refl|intros buf'].
    apply better_bind; [apply better_refl|intros pal]. apply indexed_better.
  - apply better_bind; [apply better_refl|intros pal]. apply indexed_better.
Qed.
Lemma load_image_better inflate s k t : better (load_image d inflate s k t) (load_image r inflate s k t).
Proof.
  unfold load_image. apply better_bind; [apply better_refl|intros im].
  apply better_bind; [apply usizec_better|intros n]. apply better_bind; [apply usizec_better|intros m].
  destruct (zlen t <? m); [apply better_refl|].
  destruct (decode_better inflate (af_file s) im (firstn (Z.to_nat m) t)) as [[q ->] | ->];
    [apply better_panic|apply better_refl].
Qed.

(** ** Blending *)
Lemma px_from_i32_better a b x y : better (px_from_i32 d a b x y) (px_from_i32 r a b x y).
Proof.
  unfold px_from_i32. cbn [debug d r andb].
  match goal with |- better (if ?t then _ else _) _ => destruct t end; [apply better_panic|apply better_refl].
Qed.
Lemma px_from_f64_better a b x y : better (px_from_f64 d a b x y) (px_from_f64 r a b x y).
Proof. apply px_from_i32_better. Qed.
Lemma mul8_better a b : better (mul8 d a b) (mul8 r a b).
Proof. unfold mul8. repeat step. Qed.
Lemma i32_div_better a b : better (i32_div d a b) (i32_div r a b).
Proof. unfold i32_div. repeat step. Qed.
Lemma div8_better a b : better (div8 d a b) (div8 r a b).
Proof. unfold div8. repeat (step || apply i32_div_better). Qed.
Lemma blend8_better a b o : better (blend8 d a b o) (blend8 r a b o).
Proof. unfold blend8. repeat step. Qed.
Lemma normal_channel_better a b x y : better (normal_channel d a b x y) (normal_channel r a b x y).
Proof. unfold normal_channel. repeat (step || apply i32_div_better). Qed.
Lemma normal_better a b o : better (normal d a b o) (normal r a b o).
Proof.
  unfold normal. repeat (step || apply mul8_better || apply normal_channel_better || apply px_from_i32_better).
Qed.
Lemma merge_better a b o : better (merge d a b o) (merge r a b o).
Proof.
  unfold merge. apply better_bind; [|intros [[? ?] ?]].
  - repeat (step || apply blend8_better).
  - repeat (step || apply blend8_better).
Qed.

Definition fn_better (f f' : blend_fn) : Prop := forall a b o, better (f a b o) (f' a b o).
Lemma blender_better f f' : fn_better f f' -> fn_better (blender d f) (blender r f').
Proof.
  intros Hf a b o. unfold blender. destruct (negb (pa a =? 0)); [|apply normal_better].
  apply better_bind; [apply normal_better|intros n]. apply better_bind; [apply Hf|intros x].
  apply better_bind; [apply merge_better|intros y]. apply better_bind; [apply mul8_better|intros z].
  apply better_bind; [apply mul8_better|intros u]. apply merge_better.
Qed.
Lemma channel_better f f' : (forall a b, better (f a b) (f' a b)) -> fn_better (blend_channel d f) (blend_channel r f').
Proof.
  intros Hf a b o. unfold blend_channel. do 3 (apply better_bind; [apply Hf|intros ?]). apply normal_better.
Qed.
Ltac fn := repeat (step || apply mul8_better || apply div8_better || apply normal_better || apply px_from_i32_better
                   || apply px_from_f64_better).
Lemma screen_better a b : better (blend_screen d a b) (blend_screen r a b).
Proof. unfold blend_screen. fn. Qed.
Lemma hard_light_better a b : better (blend_hard_light d a b) (blend_hard_light r a b).
Proof.
  unfold blend_hard_light. destruct (b <? 128); [apply mul8_better|].
  apply better_bind; [apply i32c_better|intros s; apply screen_better].
Qed.
Lemma fn_choice m : match blend_mode_to_blend_fn d m, blend_mode_to_blend_fn r m with
  | Ok f, Ok f' => fn_better f f'
  | Panic q, Panic q' => q = q'
  | _, _ => False
  end.
Proof.
  destruct m; cbn [blend_mode_to_blend_fn]; try reflexivity; try exact normal_better;
    apply blender_better; try (apply channel_better; intros a b); try (intros a b o).
  - apply mul8_better.
  - apply screen_better.
  - apply hard_light_better.
  - apply better_refl.
  - apply better_refl.
  - unfold blend_color_dodge. fn.
  - unfold blend_color_burn. fn.
  - apply hard_light_better.
  - unfold soft_light_baseline. fn.
  - unfold blend_difference. fn.
  - unfold blend_exclusion. fn.
  - unfold hsl_hue_baseline. cbv zeta.
    destruct (set_saturation _ _ _ _) as [[? ?] ?]. destruct (set_luminocity _ _ _ _) as [[? ?] ?]. fn.
  - unfold hsl_saturation_baseline. cbv zeta.
    destruct (set_saturation _ _ _ _) as [[? ?] ?]. destruct (set_luminocity _ _ _ _) as [[? ?] ?]. fn.
  - unfold hsl_color_baseline. cbv zeta. destruct (set_luminocity _ _ _ _) as [[? ?] ?]. fn.
  - unfold hsl_luminosity_baseline. cbv zeta. destruct (set_luminocity _ _ _ _) as [[? ?] ?]. fn.
  - unfold addition_baseline. fn.
  - unfold subtract_baseline. fn.
  - unfold blend_divide. fn.
Qed.

(** ** Rendering *)
Lemma lift_better {E A} (m m' : bout A) : better m m' -> @better E A (lift m) (lift m').
Proof. intros [[q ->] | ->]; [apply better_panic|apply better_refl]. Qed.
Lemma px_from_u8_better {E} v : @better E px (px_from_u8 d v) (px_from_u8 r v).
Proof.
  unfold px_from_u8. cbn [debug d r andb]. destruct (negb (zlen v =? 4)); [apply better_panic|apply better_refl].
Qed.
Lemma pixel_better W H cel img f f' op t y x : fn_better f f' ->
  better (render_pixel d W H cel img f op t y x) (render_pixel r W H cel img f' op t y x).
Proof.
  intros Hf. unfold render_pixel.
  destruct (checked_add_signed16 x (fst (fc_origin cel))) as [tx|]; [|apply better_refl].
  destruct (W <=? tx); [apply better_refl|].
  destruct (checked_add_signed16 y (snd (fc_origin cel))) as [ty|]; [|apply better_refl].
  destruct (H <=? ty); [apply better_refl|].
  repeat (apply better_bind;
    [first [apply usizec_better | apply px_from_u8_better | apply lift_better; apply Hf | apply better_refl]|intros ?]).
  apply better_refl.
Qed.
Lemma cel_better inflate s sel t cel : better (render_cel d inflate s sel t cel) (render_cel r inflate s sel t cel).
Proof.
  unfold render_cel. destruct (nth_error (af_layers s) (Z.to_nat (fc_layer_index cel))) as [l|]; [|apply better_refl].
  destruct (layer_type_eqb (ly_layer_type l) LGroup || negb (is_selected sel (fc_layer_index cel) l));
    [apply better_refl|].
  apply better_bind; [apply usizec_better|intros n]. apply better_bind; [apply usizec_better|intros m].
  apply better_bind; [apply better_refl|intros buf].
  apply better_bind.
  { destruct (load_image_better inflate s (fc_image_index cel) buf) as [[q ->] | ->]; [apply better_panic|apply better_refl]. }
  intros img. pose proof (fn_choice (ly_blend_mode l)) as Hf.
  destruct (blend_mode_to_blend_fn d (ly_blend_mode l)) as [f|e|q];
    destruct (blend_mode_to_blend_fn r (ly_blend_mode l)) as [f'|e'|q']; try contradiction.
  - cbn [lift bind]. unfold render_pixels. apply better_fold. intros t1 y. apply better_fold. intros t2 x.
    apply pixel_better. exact Hf.
  - apply better_panic.
Qed.
Lemma frame_better inflate s k t sel : better (render_frame d inflate s k t sel) (render_frame r inflate s k t sel).
Proof.
  unfold render_frame. apply better_bind; [apply usizec_better|intros n]. apply better_bind; [apply usizec_better|intros m].
  destruct (zlen t <? m); [apply better_refl|]. apply better_bind; [apply better_refl|intros fr].
  apply better_fold. intros t1 cel. apply cel_better.
Qed.
Lemma combined_better inflate hasher s k t :
  better (combined_frame_image d inflate hasher s k t) (combined_frame_image r inflate hasher s k t).
Proof.
  unfold combined_frame_image. apply better_bind; [apply frame_better|intros t1].
  apply better_bind; [apply better_refl|intros fr; apply better_refl].
Qed.
End Profiles.

Lemma better_same {E A} (m m' : out E A) : better m m' -> (forall q, m <> Panic q) -> m' = m.
Proof. intros [[q ->] | ->] H; [now destruct (H q)|reflexivity]. Qed.
Lemma profile_load w i : (forall q, load {| debug := true; usize_bits := w |} i <> Panic q) ->
  load {| debug := false; usize_bits := w |} i = load {| debug := true; usize_bits := w |} i.
Proof. apply better_same, load_better. Qed.
Lemma profile_load_image w inflate s k t :
  (forall q, load_image {| debug := true; usize_bits := w |} inflate s k t <> Panic q) ->
  load_image {| debug := false; usize_bits := w |} inflate s k t = load_image {| debug := true; usize_bits := w |} inflate s k t.
Proof. apply better_same, load_image_better. Qed.
Lemma profile_render w inflate s k t sel :
  (forall q, render_frame {| debug := true; usize_bits := w |} inflate s k t sel <> Panic q) ->
  render_frame {| debug := false; usize_bits := w |} inflate s k t sel = render_frame {| debug := true; usize_bits := w |} inflate s k t sel.
Proof. apply better_same, frame_better. Qed.
Lemma profile_combined w inflate hasher s k t :
  (forall q, combined_frame_image {| debug := true; usize_bits := w |} inflate hasher s k t <> Panic q) ->
  combined_frame_image {| debug := false; usize_bits := w |} inflate hasher s k t =
  combined_frame_image {| debug := true; usize_bits := w |} inflate hasher s k t.
Proof. apply better_same, combined_better. Qed.
